From Coq Require Import ZArith List Bool Lia ZifyBool.
From Verif Require Import Lists Bytes Fmp4Model Fmp4Spec Fmp4Proofs Fmp4Proofs2 CencModel CencSpec.
Import ListNotations.
Open Scope Z_scope.

(* ------------------------------------------------------------------ *)
(* Counters                                                             *)

Lemma bump_le n : forall q, bump (le n q) = le n (q + 1).
Proof.
  induction n as [|n IH]; intro q; [reflexivity|]. cbn [le bump].
  assert (E : (q mod 256 + 1) mod 256 = (q + 1) mod 256) by (rewrite Zplus_mod_idemp_l; reflexivity).
  rewrite E. destruct (Z.eqb_spec ((q + 1) mod 256) 0) as [H|H]; f_equal.
  - rewrite IH. f_equal. Z.div_mod_to_equations. lia.
  - f_equal. Z.div_mod_to_equations. lia.
Qed.

Lemma incr_be n q : incr (be n q) = be n (q + 1).
Proof. unfold incr, be. now rewrite rev_involutive, bump_le. Qed.

Lemma next_ctr_be iv q : length iv = 8%nat -> next_ctr (iv ++ be 8 q) = iv ++ be 8 (q + 1).
Proof.
  intro L. unfold next_ctr. rewrite firstn_app, skipn_app, L, Nat.sub_diag. rewrite (firstn_all2 iv), (skipn_all2 iv) by lia.
  change (firstn 0 (be 8 q)) with (@nil Z). change (skipn 0 (be 8 q)) with (be 8 q). rewrite app_nil_r. cbn [app]. now rewrite incr_be.
Qed.

Lemma iter_ctr iv n : length iv = 8%nat -> forall q,
  Nat.iter n next_ctr (iv ++ be 8 q) = iv ++ be 8 (q + Z.of_nat n).
Proof.
  intros L. induction n as [|n IH]; intro q; [now rewrite Z.add_0_r|].
  change (Nat.iter (S n) next_ctr (iv ++ be 8 q)) with (next_ctr (Nat.iter n next_ctr (iv ++ be 8 q))).
  rewrite IH, next_ctr_be by auto. do 2 f_equal. lia.
Qed.

(* ------------------------------------------------------------------ *)
(* Key streams                                                          *)

Fixpoint keys (E : list Z -> list Z) (iv : list Z) (p : Z) (n : nat) : list Z :=
  match n with O => [] | S n => key_byte E iv p :: keys E iv (p + 1) n end.

Lemma keys_length E iv n : forall p, length (keys E iv p n) = n.
Proof. induction n; intro p; cbn; auto. Qed.

Lemma keys_app E iv n m : forall p, keys E iv p (n + m) = keys E iv p n ++ keys E iv (p + Z.of_nat n) m.
Proof.
  induction n as [|n IH]; intro p; cbn [keys Nat.add app]; [now rewrite Z.add_0_r|].
  rewrite IH. do 3 f_equal. lia.
Qed.

Lemma skipn_keys E iv n k p : skipn k (keys E iv p (k + n)) = keys E iv (p + Z.of_nat k) n.
Proof. rewrite keys_app, skipn_app, skipn_all2, keys_length, Nat.sub_diag; [reflexivity|]. rewrite keys_length. lia. Qed.

Lemma keys_nth E iv n : forall p i, (i < n)%nat -> nth i (keys E iv p n) 0 = key_byte E iv (p + Z.of_nat i).
Proof.
  induction n as [|n IH]; intros p i H; [lia|]. cbn [keys nth]. destruct i as [|i]; [now rewrite Z.add_0_r|].
  rewrite IH by lia. f_equal. lia.
Qed.

Lemma block_keys E iv q : block_cipher E -> length iv = 8%nat -> 0 <= q ->
  E (iv ++ be 8 q) = keys E iv (16 * q) 16.
Proof.
  intros B L Q. assert (LE : length (E (iv ++ be 8 q)) = 16%nat).
  { apply B. rewrite app_length, be_length. lia. }
  apply (nth_ext _ _ 0 0); [now rewrite LE, keys_length|].
  intros i Hi. rewrite LE in Hi. rewrite keys_nth by lia. unfold key_byte.
  replace ((16 * q + Z.of_nat i) / 16) with q by (apply (Z.div_unique _ 16 _ (Z.of_nat i)); lia).
  replace ((16 * q + Z.of_nat i) mod 16) with (Z.of_nat i) by (apply (Z.mod_unique _ 16 q); lia).
  now rewrite Nat2Z.id.
Qed.

Lemma counters_keys E iv n : block_cipher E -> length iv = 8%nat -> forall q, 0 <= q ->
  concat (map E (counters n (iv ++ be 8 q))) = keys E iv (16 * q) (16 * n).
Proof.
  intros B L. induction n as [|n IH]; intros q Q; [reflexivity|].
  cbn [counters map concat]. rewrite next_ctr_be by auto. rewrite IH by lia. rewrite block_keys by auto.
  replace (16 * S n)%nat with (16 + 16 * n)%nat by lia. rewrite keys_app. do 2 f_equal. lia.
Qed.

Lemma ctr_app E iv a : forall p b, ctr E iv p (a ++ b) = ctr E iv p a ++ ctr E iv (p + zlen a) b.
Proof.
  induction a as [|x a IH]; intros p b; cbn [ctr app].
  - f_equal. unfold zlen. cbn. lia.
  - rewrite IH, zlen_cons. do 3 f_equal. lia.
Qed.

Lemma zlen_ctr E iv a : forall p, zlen (ctr E iv p a) = zlen a.
Proof. induction a as [|x a IH]; intro p; cbn [ctr]; [reflexivity|]. now rewrite !zlen_cons, IH. Qed.

Lemma ctr_ctr E iv a : forall p, ctr E iv p (ctr E iv p a) = a.
Proof.
  induction a as [|x a IH]; intro p; cbn [ctr]; [reflexivity|]. rewrite IH. f_equal.
  rewrite Z.lxor_assoc, Z.lxor_nilpotent, Z.lxor_0_r. reflexivity.
Qed.

Lemma xors_keys E iv a : forall p n, (length a <= n)%nat -> xors a (keys E iv p n) = ctr E iv p a.
Proof.
  induction a as [|x a IH]; intros p [|n] H; cbn [xors keys ctr length] in *; try lia; auto.
  rewrite IH by lia. reflexivity.
Qed.

(* The state of the cipher at byte p of the key stream of iv. *)
Definition at_ (E : list Z -> list Z) (iv : list Z) (p : Z) (st : aes) : Prop :=
  exists q m, a_ctr st = iv ++ be 8 q /\ a_left st = keys E iv p m /\ p + Z.of_nat m = 16 * q /\ 0 <= q.

Lemma at_set_iv E iv : at_ E iv 0 (set_iv iv).
Proof. exists 0, 0%nat. repeat split; lia. Qed.

Lemma process_ok E iv : block_cipher E -> length iv = 8%nat -> forall fuel src st p,
  (length src < fuel)%nat -> at_ E iv p st ->
  exists st', process E fuel st src = (ctr E iv p src, st') /\ at_ E iv (p + zlen src) st'.
Proof.
  intros B L. induction fuel as [|fuel IH]; intros src st p Hl A; [lia|].
  cbn [process]. destruct src as [|b src].
  { exists st. cbn [ctr]. split; [reflexivity|]. replace (p + zlen (@nil Z)) with p by (unfold zlen; cbn; lia). exact A. }
  set (s := b :: src) in *.
  assert (A' : exists ks c m, (match a_left st with
      | [] => (concat (map E (counters (Nat.min ((length s + 15) / 16) 64) (a_ctr st))),
               Nat.iter (Nat.min ((length s + 15) / 16) 64) next_ctr (a_ctr st))
      | l => (l, a_ctr st) end) = (ks, c) /\ ks = keys E iv p m /\ (0 < m)%nat /\
      exists q, c = iv ++ be 8 q /\ p + Z.of_nat m = 16 * q /\ 0 <= q).
  { destruct A as (q & m & E1 & E2 & E3 & E4). rewrite E1, E2. destruct m as [|m].
    - cbn [keys]. set (n := Nat.min ((length s + 15) / 16) 64).
      assert (N1 : (1 <= n)%nat).
      { unfold n, s. apply Nat.min_glb; [|lia]. apply Nat.div_le_lower_bound; cbn [length]; lia. }
      eexists _, _, (16 * n)%nat. split; [reflexivity|]. rewrite counters_keys, iter_ctr by auto.
      replace (16 * q) with p by lia. split; [reflexivity|]. split; [lia|].
      exists (q + Z.of_nat n). split; [reflexivity|]. lia.
    - eexists _, _, (S m). split; [reflexivity|]. split; [reflexivity|]. split; [lia|]. exists q. auto. }
  destruct A' as (ks & c & m & -> & -> & Hm & q & Ec & Eq & Hq).
  rewrite keys_length. set (k := Nat.min m (length s)).
  assert (K1 : (1 <= k)%nat) by (unfold k, s; cbn [length]; lia).
  assert (K2 : (k <= m)%nat) by (unfold k; lia).
  assert (K3 : (k <= length s)%nat) by (unfold k; lia).
  destruct (IH (skipn k s) (Aes c (skipn k (keys E iv p m))) (p + Z.of_nat k)) as (st' & Ep & A2).
  { rewrite skipn_length. lia. }
  { exists q, (m - k)%nat. cbn [a_ctr a_left]. split; [exact Ec|]. split.
    { replace m with (k + (m - k))%nat at 1 by lia. apply skipn_keys. }
    split; [lia|exact Hq]. }
  rewrite Ep. exists st'. split.
  - f_equal. rewrite xors_keys by (rewrite firstn_length; lia).
    rewrite <- (firstn_skipn k s) at 3. rewrite ctr_app. do 2 f_equal. unfold zlen. rewrite firstn_length. lia.
  - replace (p + zlen s) with (p + Z.of_nat k + zlen (skipn k s)); [exact A2|].
    unfold zlen. rewrite skipn_length. lia.
Qed.

(* ------------------------------------------------------------------ *)
(* The write buffer                                                     *)

Definition stream (w : wb) : list Z := w_out w ++ w_buf w.
Definition ok_wb (cap : Z) (w : wb) : Prop := zlen (w_buf w) <= w_size w <= cap.

Lemma ok_init cap : 0 <= cap -> ok_wb cap wb_init.
Proof. unfold ok_wb, wb_init, zlen. cbn. lia. Qed.

Lemma flush_ok cap r w : 0 <= cap -> ok_wb cap (wb_flush cap r w) /\ stream (wb_flush cap r w) = stream w.
Proof.
  intro C. split.
  - unfold ok_wb, wb_flush, zlen. cbn. destruct r; lia.
  - unfold stream, wb_flush. cbn. now rewrite app_nil_r.
Qed.

Lemma get_ok cap n w : ok_wb cap w -> 0 <= n <= cap ->
  exists w', wb_get cap n w = Ok w' /\ stream w' = stream w /\ ok_wb cap w' /\ zlen (w_buf w') + n <= w_size w'.
Proof.
  intros O N. pose proof (zlen_nonneg (w_buf w)) as Hb. unfold ok_wb in O. unfold wb_get. destruct (Z.gtb_spec (zlen (w_buf w) + n) (w_size w)) as [H|H].
  - destruct (flush_ok cap true w ltac:(lia)) as (F1 & F2).
    destruct (Z.gtb_spec n (w_size (wb_flush cap true w))) as [H2|H2]; [cbn in H2; lia|].
    eexists. split; [reflexivity|]. split; [exact F2|]. split; [exact F1|]. unfold zlen. cbn. lia.
  - destruct (Z.gtb_spec n (w_size w)) as [H2|H2]; [lia|]. exists w. auto.
Qed.

Lemma put_ok cap l w : ok_wb cap w -> zlen (w_buf w) + zlen l <= w_size w ->
  ok_wb cap (wb_put l w) /\ stream (wb_put l w) = stream w ++ l.
Proof.
  intros O H. unfold ok_wb, stream, wb_put in *. cbn. rewrite zlen_app. split; [lia|]. now rewrite app_assoc.
Qed.

Lemma zlen_firstn (l : list Z) n : 0 <= n <= zlen l -> zlen (firstn (Z.to_nat n) l) = n.
Proof. unfold zlen. intro H. rewrite firstn_length. lia. Qed.

(* A buffer that is full, or was not allocated, takes one round more. *)
Lemma wb_write_ok cap : 1 <= cap -> forall fuel l w,
  (length l + (if (zlen (w_buf w) <? w_size w)%Z then 0 else 1) < fuel)%nat -> ok_wb cap w ->
  exists w', wb_write cap fuel l w = Ok w' /\ stream w' = stream w ++ l /\ ok_wb cap w'.
Proof.
  intro C. induction fuel as [|fuel IH]; intros l w Hl O; [lia|].
  cbn [wb_write]. pose proof (zlen_nonneg l) as Zl. pose proof (zlen_nonneg (w_buf w)) as Zb. assert (O' := O). unfold ok_wb in O'.
  set (n := Z.min (w_size w - zlen (w_buf w)) (zlen l)).
  assert (N : 0 <= n <= zlen l) by (unfold n; lia).
  destruct (put_ok cap (firstn (Z.to_nat n) l) w O) as (P1 & P2).
  { rewrite zlen_firstn by lia. unfold n. lia. }
  destruct (skipn (Z.to_nat n) l) as [|b r] eqn:Es.
  - eexists. split; [reflexivity|]. split; [|exact P1]. rewrite P2. f_equal.
    rewrite <- (firstn_skipn (Z.to_nat n) l) at 2. now rewrite Es, app_nil_r.
  - destruct (flush_ok cap true (wb_put (firstn (Z.to_nat n) l) w) ltac:(lia)) as (F1 & F2).
    assert (Lr : length (b :: r) = (length l - Z.to_nat n)%nat) by (rewrite <- Es; apply skipn_length).
    set (w1 := wb_flush cap true (wb_put (firstn (Z.to_nat n) l) w)) in *.
    assert (W1 : zlen (w_buf w1) <? w_size w1 = true) by (apply Z.ltb_lt; change (0 < cap); lia).
    destruct (IH (b :: r) w1) as (w' & E' & S' & O2).
    + rewrite W1, Lr. destruct (Z.ltb_spec (zlen (w_buf w)) (w_size w)) as [H|H]; [|lia].
      assert (1 <= n \/ zlen l = 0) as [H1|H1] by (unfold n; lia);
        [assert (ZL : zlen l = Z.of_nat (length l)) by reflexivity; lia|].
      exfalso. unfold zlen in H1. assert (length l = 0%nat) by lia. cbn [length] in Lr. lia.
    + exact F1.
    + exists w'. split; [exact E'|]. split; [|exact O2]. rewrite S', F2, P2, <- app_assoc. f_equal.
      rewrite <- Es. apply firstn_skipn.
Qed.

Lemma write_encrypted_ok E cap iv : block_cipher E -> length iv = 8%nat -> 16 <= cap -> forall fuel l w st p,
  (length l < fuel)%nat -> ok_wb cap w -> at_ E iv p st ->
  exists w' st', write_encrypted E cap fuel l w st = Ok (w', st') /\
    stream w' = stream w ++ ctr E iv p l /\ ok_wb cap w' /\ at_ E iv (p + zlen l) st'.
Proof.
  intros B L C. induction fuel as [|fuel IH]; intros l w st p Hl O A; [lia|].
  cbn [write_encrypted]. destruct l as [|b l].
  { exists w, st. cbn [ctr]. rewrite app_nil_r. repeat split; auto; try apply O.
    replace (p + zlen (@nil Z)) with p by (unfold zlen; cbn; lia). exact A. }
  set (s := b :: l) in *. destruct (get_ok cap 16 w O ltac:(lia)) as (w1 & -> & S1 & O1 & G1). cbn [bind].
  set (n := Z.min (w_size w1 - zlen (w_buf w1)) (zlen s)).
  assert (Zs : 1 <= zlen s) by (unfold s; rewrite zlen_cons; pose proof (zlen_nonneg l); lia).
  assert (N : 1 <= n <= zlen s) by (unfold n; lia).
  assert (ZL : zlen s = Z.of_nat (length s)) by reflexivity.
  destruct (process_ok E iv B L (S (length s)) (firstn (Z.to_nat n) s) st p) as (st1 & -> & A1); auto.
  { rewrite firstn_length. lia. }
  rewrite zlen_firstn in A1 by lia.
  destruct (put_ok cap (ctr E iv p (firstn (Z.to_nat n) s)) w1 O1) as (P1 & P2).
  { rewrite zlen_ctr, zlen_firstn by lia. unfold n. lia. }
  destruct (IH (skipn (Z.to_nat n) s) (wb_put (ctr E iv p (firstn (Z.to_nat n) s)) w1) st1 (p + n))
    as (w' & st' & E' & S' & O' & A'); auto.
  { rewrite skipn_length. lia. }
  exists w', st'. split; [exact E'|]. split.
  { rewrite S', P2, S1, <- app_assoc. f_equal. rewrite <- (firstn_skipn (Z.to_nat n) s) at 3.
    rewrite ctr_app, zlen_firstn by lia. reflexivity. }
  split; [exact O'|]. replace (p + zlen s) with (p + n + zlen (skipn (Z.to_nat n) s)); [exact A'|].
  unfold zlen. rewrite skipn_length. unfold zlen in N. lia.
Qed.
