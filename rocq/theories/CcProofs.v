(* The reader of bytes without emulation prevention. *)
From Coq Require Import ZArith List Bool Lia ZifyBool Arith.
From Verif Require Import Bytes CcModel CcSpec.
Import ListNotations.
Open Scope Z_scope.

Lemma next_byte_cons base : forall b r, concat base = b :: r -> exists base', next_byte base = Some (b, base') /\ concat base' = r.
Proof.
  induction base as [|d base IH]; intros b r E; [discriminate E|]. destruct d as [|x d]; cbn [concat app] in E.
  - destruct base as [|d' base]; [discriminate E|]. destruct (IH b r E) as (base' & E1 & E2). exists base'. split; [exact E1 | exact E2].
  - injection E as -> <-. exists (d :: base). split; reflexivity.
Qed.
Lemma chain_read_ok r : forall a b, r <> [] -> concat r = a ++ b -> exists r', chain_read r (length a) = Some (a, r') /\ concat r' = b /\ r' <> [].
Proof.
  induction r as [|d r IH]; intros a b NE E; [congruence|]. cbn [chain_read concat] in *. destruct (length a <=? length d)%nat eqn:Q.
  - assert (a = firstn (length a) d) as Ea. { apply (f_equal (firstn (length a))) in E. rewrite firstn_app, (firstn_app (length a) a), Nat.sub_diag, firstn_O, app_nil_r, firstn_all in E. replace (length a - length d)%nat with O in E by lia. rewrite firstn_O, app_nil_r in E. symmetry. exact E. }
    rewrite <- Ea. eexists. split; [reflexivity|]. split; [|discriminate]. cbn [concat]. apply (app_inv_head a). rewrite <- E, app_assoc. f_equal. rewrite Ea at 1. apply firstn_skipn.
  - destruct r as [|d' r]; [cbn [concat] in E; rewrite app_nil_r in E; subst d; rewrite app_length in Q; lia|]. assert (a = d ++ skipn (length d) a) as Ea. { apply (f_equal (firstn (length d))) in E. rewrite firstn_app, Nat.sub_diag, firstn_O, app_nil_r, firstn_all, firstn_app in E. replace (length d - length a)%nat with O in E by lia. rewrite firstn_O, app_nil_r in E. rewrite E at 1. symmetry. apply firstn_skipn. }
    set (a' := skipn (length d) a) in *. assert (concat (d' :: r) = a' ++ b) as E'. { apply (app_inv_head d). rewrite E, Ea at 1. rewrite <- app_assoc. reflexivity. }
    destruct (IH a' b ltac:(discriminate) E') as (r' & R1 & R2 & R3). replace (length a - length d)%nat with (length a') by (unfold a'; rewrite skipn_length; reflexivity). rewrite R1. exists r'. rewrite <- Ea. split; [reflexivity|]. split; assumption.
Qed.
Lemma chain_skip_read r : forall n, chain_skip r n = match chain_read r n with Some (_, r') => Some r' | None => None end.
Proof. induction r as [|d r IH]; intros n; [reflexivity|]. cbn [chain_skip chain_read]. destruct (n <=? length d)%nat; [reflexivity|]. destruct r as [|d' r]; [reflexivity|]. rewrite IH. destruct (chain_read (d' :: r) (n - length d)) as [[? ?]|]; reflexivity. Qed.
Lemma chain_read_end r n : concat r = [] -> (0 < n)%nat -> chain_read r n = None.
Proof. revert n. induction r as [|d r IH]; intros n E N; [reflexivity|]. cbn [concat] in E. apply app_eq_nil in E. destruct E as [-> E]. cbn [chain_read length]. assert (n <=? 0 = false)%nat as -> by lia. destruct r as [|d' r]; [reflexivity|]. rewrite (IH (n - 0)%nat E ltac:(lia)). reflexivity. Qed.

(* ----- the last three bytes *)
Definition zs (t : Z) : nat := if t mod 65536 =? 0 then 2%nat else if t mod 256 =? 0 then 1%nat else O.
Lemma three_step t b : 0 <= t < 2 ^ 24 -> is_byte b ->
  0 <= (t * 256 + b) mod 2 ^ 24 < 2 ^ 24 /\ ((t * 256 + b) mod 2 ^ 24 =? 3) = ((zs t =? 2)%nat && (b =? 3)) /\ zs ((t * 256 + b) mod 2 ^ 24) = zeros (zs t) b.
Proof.
  intros Ht Hb. unfold is_byte in Hb. assert ((t * 256 + b) mod 2 ^ 24 = (t mod 65536) * 256 + b) as ->.
  { symmetry. apply (Z.mod_unique _ _ (t / 65536)); [left; pose proof (Z.mod_pos_bound t 65536 ltac:(lia)); lia|]. pose proof (Z.div_mod t 65536 ltac:(lia)). lia. }
  pose proof (Z.mod_pos_bound t 65536 ltac:(lia)) as B. split; [lia|]. assert ((t mod 65536) mod 256 = t mod 256) as M. { symmetry. apply (Z.mod_unique _ _ (t / 256 - 256 * (t / 65536))); [left; apply Z.mod_pos_bound; lia|]. pose proof (Z.div_mod t 65536 ltac:(lia)). pose proof (Z.div_mod t 256 ltac:(lia)). lia. }
  unfold zs. rewrite <- M. set (u := t mod 65536) in *. assert ((u * 256 + b) mod 65536 = (u mod 256) * 256 + b) as ->. { symmetry. apply (Z.mod_unique _ _ (u / 256)); [left; pose proof (Z.mod_pos_bound u 256 ltac:(lia)); lia|]. pose proof (Z.div_mod u 256 ltac:(lia)). lia. }
  assert ((u * 256 + b) mod 256 = b) as ->. { symmetry. apply (Z.mod_unique _ _ u); lia. } pose proof (Z.mod_pos_bound u 256 ltac:(lia)) as B2. unfold zeros.
  assert (u = 0 -> u mod 256 = 0) as U0 by (intros ->; reflexivity). set (w := u mod 256) in *. clearbody w. clear M.
  destruct (u =? 0) eqn:Q1; [|destruct (w =? 0) eqn:Q2]; cbn [Nat.eqb andb].
  - split; [lia|]. specialize (U0 ltac:(lia)). destruct (b =? 0) eqn:Q3; [assert (w * 256 + b =? 0 = true) as -> by lia; reflexivity | assert (w * 256 + b =? 0 = false) as -> by lia; reflexivity].
  - split; [lia|]. destruct (b =? 0) eqn:Q3; [assert (w * 256 + b =? 0 = true) as -> by lia; reflexivity | assert (w * 256 + b =? 0 = false) as -> by lia; reflexivity].
  - split; [lia|]. assert (w * 256 + b =? 0 = false) as -> by lia. destruct (b =? 0); reflexivity.
Qed.

(* ----- reading anything *)
Definition view (e : ep) (R T : list Z) : Prop :=
  concat (e_base e) = R ++ T /\ e_left e = Z.of_nat (length R) /\ 0 <= e_three e < 2 ^ 24 /\ Forall is_byte R.
Definition text (e : ep) (R : list Z) : list Z := unescape (zs (e_three e)) R.
Lemma unescape_length l : forall z, (length (unescape z l) <= length l)%nat.
Proof. induction l as [|b l IH]; intros z; [cbn; lia|]. cbn [unescape]. destruct (_ && _); cbn [length]; [specialize (IH O) | specialize (IH (zeros z b))]; lia. Qed.

Lemma ep_loop_gen R : forall T fuel n base three left acc, concat base = R ++ T -> left + Z.of_nat n = Z.of_nat (length R) -> 0 <= left -> 0 <= three < 2 ^ 24 -> Forall is_byte R -> (length R <= fuel)%nat ->
  (if (n <=? length (unescape (zs three) R))%nat
   then exists e' R', ep_loop fuel n (Ep base three left) acc = Some (acc ++ firstn n (unescape (zs three) R), e') /\ view e' R' T /\ text e' R' = skipn n (unescape (zs three) R)
   else ep_loop fuel n (Ep base three left) acc = None).
Proof.
  induction R as [|b R IH]; intros T fuel n base three left acc E L L0 H3 HB F.
  - cbn [length] in L. assert (n = O) as -> by lia. cbn [unescape length Nat.leb]. exists (Ep base three left), []. rewrite firstn_O, app_nil_r, skipn_O. split; [destruct fuel; reflexivity|]. split; [|reflexivity]. unfold view. cbn [e_base e_left e_three length]. split; [exact E|]. split; [lia|]. split; [exact H3 | constructor].
  - destruct n as [|n].
    { cbn [Nat.leb]. exists (Ep base three left), (b :: R). rewrite firstn_O, app_nil_r, skipn_O. split; [destruct fuel; reflexivity|]. split; [|reflexivity]. unfold view. cbn [e_base e_left e_three]. split; [exact E|]. split; [lia|]. split; assumption. }
    inversion HB as [|? ? Hb HB']; subst. cbn [length] in F. destruct fuel as [|fuel]; [lia|]. destruct (next_byte_cons base b (R ++ T) E) as (base' & NB & E'). destruct (three_step three b H3 Hb) as (S1 & S2 & S3). set (t' := (three * 256 + b) mod 2 ^ 24) in *.
    cbn [ep_loop e_base e_three e_left]. rewrite NB. cbv zeta. fold t'. rewrite S2. cbn [unescape]. destruct ((zs three =? 2)%nat && (b =? 3)) eqn:QE.
    + assert (zs t' = O) as Z0. { rewrite S3. unfold zeros. assert (b =? 0 = false) as -> by lia. reflexivity. } cbn [length] in L. destruct (left <=? 0) eqn:QL.
      * pose proof (unescape_length R 0). assert (S n <=? length (unescape 0 R) = false)%nat as -> by lia. reflexivity.
      * specialize (IH T fuel (S n) base' t' (left - 1) acc E' ltac:(lia) ltac:(lia) S1 HB' ltac:(lia)). rewrite Z0 in IH. exact IH.
    + cbn [length]. cbn [length] in L. specialize (IH T fuel n base' t' left (acc ++ [b]) E' ltac:(lia) L0 S1 HB' ltac:(lia)). rewrite S3 in IH. cbn [Nat.leb firstn skipn]. rewrite <- app_assoc in IH. exact IH.
Qed.
Lemma ep_read_gen e R T n : view e R T ->
  (if (n <=? length (text e R))%nat then exists e' R', ep_read e n = Some (firstn n (text e R), e') /\ view e' R' T /\ text e' R' = skipn n (text e R) else ep_read e n = None).
Proof.
  intros (V1 & V2 & V3 & V4). unfold ep_read, text. destruct (e_left e <? Z.of_nat n) eqn:Q.
  - pose proof (unescape_length R (zs (e_three e))). assert (n <=? length (unescape (zs (e_three e)) R) = false)%nat as -> by lia. reflexivity.
  - pose proof (ep_loop_gen R T (length (concat (e_base e))) n (e_base e) (e_three e) (e_left e - Z.of_nat n) [] V1 ltac:(lia) ltac:(lia) V3 V4 ltac:(rewrite V1, app_length; lia)) as G. exact G.
Qed.

(* ----- reading what was escaped *)
Definition eview (e : ep) (L T : list Z) : Prop :=
  concat (e_base e) = escape (zs (e_three e)) L ++ T /\ e_left e = Z.of_nat (length (escape (zs (e_three e)) L)) /\ 0 <= e_three e < 2 ^ 24 /\ Forall is_byte L.
Lemma escape_length l : forall z, (length l <= length (escape z l))%nat.
Proof. induction l as [|b l IH]; intros z; [cbn; lia|]. cbn [escape]. destruct (_ && _); cbn [length]; [specialize (IH (zeros 0 b)) | specialize (IH (zeros z b))]; lia. Qed.
Lemma zs_le t : (zs t <= 2)%nat.
Proof. unfold zs. destruct (_ =? _); [lia|]. destruct (_ =? _); lia. Qed.
Lemma ep_loop_esc L : forall T fuel n base three left acc, concat base = escape (zs three) L ++ T -> left + Z.of_nat n = Z.of_nat (length (escape (zs three) L)) -> 0 <= three < 2 ^ 24 -> Forall is_byte L ->
  (n <= length L)%nat -> (length (escape (zs three) L) <= fuel)%nat -> exists e', ep_loop fuel n (Ep base three left) acc = Some (acc ++ firstn n L, e') /\ eview e' (skipn n L) T.
Proof.
  induction L as [|b L IH]; intros T fuel n base three left acc E LL H3 HB N F.
  - cbn [length] in N. assert (n = O) as -> by lia. exists (Ep base three left). rewrite firstn_O, app_nil_r, skipn_O. split; [destruct fuel; reflexivity|]. unfold eview. cbn [e_base e_left e_three]. split; [exact E|]. split; [lia|]. split; assumption.
  - destruct n as [|n]. { exists (Ep base three left). rewrite firstn_O, app_nil_r, skipn_O. split; [destruct fuel; reflexivity|]. unfold eview. cbn [e_base e_left e_three]. split; [exact E|]. split; [lia|]. split; assumption. }
    inversion HB as [|? ? Hb HB']; subst. cbn [length] in N. cbn [escape] in *. destruct ((zs three =? 2)%nat && (b <=? 3)) eqn:QE.
    + cbn [length app] in *. pose proof (escape_length L (zeros 0 b)) as EL. destruct fuel as [|fuel]; [lia|]. destruct (next_byte_cons base 3 (b :: escape (zeros 0 b) L ++ T) E) as (base1 & NB1 & E1). destruct (three_step three 3 H3 ltac:(unfold is_byte; lia)) as (A1 & A2 & A3). set (t1 := (three * 256 + 3) mod 2 ^ 24) in *.
      cbn [ep_loop e_base e_three e_left]. rewrite NB1. cbv zeta. fold t1. rewrite A2. assert ((zs three =? 2)%nat && (3 =? 3) = true) as -> by lia. assert (left <=? 0 = false) as -> by lia.
      destruct fuel as [|fuel]; [lia|]. destruct (next_byte_cons base1 b (escape (zeros 0 b) L ++ T) E1) as (base2 & NB2 & E2). change (zeros (zs three) 3) with O in A3. destruct (three_step t1 b A1 Hb) as (B1 & B2 & B3). set (t2 := (t1 * 256 + b) mod 2 ^ 24) in *. rewrite A3 in *.
      cbn [ep_loop e_base e_three e_left]. rewrite NB2. cbv zeta. fold t2. rewrite B2. cbn [Nat.eqb andb]. rewrite <- B3 in *. destruct (IH T fuel n base2 t2 (left - 1) (acc ++ [b]) E2 ltac:(lia) B1 HB' ltac:(lia) ltac:(lia)) as (e' & X1 & X2). exists e'. rewrite X1, <- app_assoc. cbn [firstn skipn]. split; [reflexivity | exact X2].
    + cbn [length app] in *. destruct fuel as [|fuel]; [lia|]. destruct (next_byte_cons base b (escape (zeros (zs three) b) L ++ T) E) as (base1 & NB1 & E1). destruct (three_step three b H3 Hb) as (A1 & A2 & A3). set (t1 := (three * 256 + b) mod 2 ^ 24) in *.
      cbn [ep_loop e_base e_three e_left]. rewrite NB1. cbv zeta. fold t1. rewrite A2. assert ((zs three =? 2)%nat && (b =? 3) = false) as -> by lia. rewrite <- A3 in *. destruct (IH T fuel n base1 t1 left (acc ++ [b]) E1 ltac:(lia) A1 HB' ltac:(lia) ltac:(lia)) as (e' & X1 & X2). exists e'. rewrite X1, <- app_assoc. cbn [firstn skipn]. split; [reflexivity | exact X2].
Qed.
Lemma ep_read_esc e A L T : eview e (A ++ L) T -> exists e', ep_read e (length A) = Some (A, e') /\ eview e' L T.
Proof.
  intros (V1 & V2 & V3 & V4). unfold ep_read. pose proof (escape_length (A ++ L) (zs (e_three e))) as EL. rewrite app_length in EL. assert (e_left e <? Z.of_nat (length A) = false) as -> by lia.
  destruct (ep_loop_esc (A ++ L) T (length (concat (e_base e))) (length A) (e_base e) (e_three e) (e_left e - Z.of_nat (length A)) [] V1 ltac:(lia) V3 V4 ltac:(rewrite app_length; lia) ltac:(rewrite V1, app_length; lia)) as (e' & X1 & X2).
  exists e'. rewrite X1. cbn [app]. rewrite firstn_app, Nat.sub_diag, firstn_O, app_nil_r, firstn_all. rewrite skipn_app, Nat.sub_diag, skipn_O, skipn_all in X2. cbn [app] in X2. split; [reflexivity | exact X2].
Qed.
