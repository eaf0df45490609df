(* The bit reader, the numbers of a name, the fields. *)
From Coq Require Import ZArith List Bool Lia ZifyBool Arith.
From Verif Require Import Bytes NameModel NameSpec.
Import ListNotations.
Open Scope Z_scope.

(* ----- bits, the first is the most significant one *)
Fixpoint lows (k : nat) (b : Z) : list bool := match k with O => [] | S k => Z.testbit b (Z.of_nat k) :: lows k b end.
Definition numf (r : Z) (l : list bool) : Z := fold_left (fun v b => v * 2 + Z.b2z b) l r.
Definition rbits (s : rd) : list bool := lows (Z.to_nat (r_bit s + 1)) (r_cur s) ++ concat (map (lows 8) (r_rest s)).
Definition rd_ok (s : rd) : Prop := -1 <= r_bit s <= 7.

Lemma bit_of v k : 0 <= k -> Z.land (Z.shiftr v k) 1 = Z.b2z (Z.testbit v k).
Proof. intros H. change 1 with (Z.ones 1). rewrite Z.land_ones by lia. rewrite Z.shiftr_div_pow2 by lia. rewrite Z.testbit_spec' by lia. reflexivity. Qed.
Lemma lows_S k b : lows (S k) b = Z.testbit b (Z.of_nat k) :: lows k b.
Proof. reflexivity. Qed.
Lemma one_cur s : 0 <= r_bit s <= 7 -> exists b l, rbits s = b :: l /\ Z.land (Z.shiftr (r_cur s) (r_bit s)) 1 = Z.b2z b /\ rbits (Rd (r_rest s) (r_eof s) (r_cur s) (r_bit s - 1)) = l.
Proof.
  intros H. exists (Z.testbit (r_cur s) (r_bit s)), (lows (Z.to_nat (r_bit s)) (r_cur s) ++ concat (map (lows 8) (r_rest s))). split; [|split; [apply bit_of; lia|]].
  - unfold rbits. replace (Z.to_nat (r_bit s + 1)) with (S (Z.to_nat (r_bit s))) by lia. rewrite lows_S, Z2Nat.id by lia. reflexivity.
  - unfold rbits. cbn [r_bit r_cur r_rest]. replace (r_bit s - 1 + 1) with (r_bit s) by lia. reflexivity.
Qed.
Lemma get_one_ok s b l : rd_ok s -> rbits s = b :: l -> exists s', get_one s = (Z.b2z b, s') /\ rbits s' = l /\ r_eof s' = r_eof s /\ rd_ok s'.
Proof.
  intros K E. unfold get_one, rd_ok in *. destruct (r_bit s <? 0) eqn:Q.
  - unfold rbits in E. replace (Z.to_nat (r_bit s + 1)) with O in E by lia. cbn [lows app] in E. destruct (r_rest s) as [|c r]; [discriminate E|]. destruct (one_cur (Rd r (r_eof s) c 7) ltac:(cbn; lia)) as (b' & l' & X1 & X2 & X3). cbn [r_rest r_eof r_cur r_bit] in *. assert (b' :: l' = b :: l) as Y. { rewrite <- X1, <- E. reflexivity. } injection Y as -> ->. rewrite X2. eexists. split; [reflexivity|]. split; [exact X3|]. cbn. split; [reflexivity | lia].
  - destruct (one_cur s ltac:(lia)) as (b' & l' & X1 & X2 & X3). rewrite E in X1. injection X1 as <- <-. rewrite X2. eexists. split; [reflexivity|]. split; [exact X3|]. cbn. split; [reflexivity | lia].
Qed.
Lemma get_one_end s : rd_ok s -> rbits s = [] -> r_eof (snd (get_one s)) = true /\ rd_ok (snd (get_one s)).
Proof.
  intros K E. unfold get_one, rd_ok in *. destruct (r_bit s <? 0) eqn:Q.
  - unfold rbits in E. apply app_eq_nil in E. destruct E as [_ E]. destruct (r_rest s) as [|c r]; [cbn; split; [reflexivity | lia]|]. cbn in E. discriminate E.
  - destruct (one_cur s ltac:(lia)) as (b' & l' & X1 & _). rewrite E in X1. discriminate X1.
Qed.
Lemma get_one_eof s : rd_ok s -> r_eof s = true -> r_eof (snd (get_one s)) = true /\ rd_ok (snd (get_one s)).
Proof. intros K E. unfold get_one, rd_ok in *. destruct (r_bit s <? 0) eqn:Q; [destruct (r_rest s)|]; cbn; split; try reflexivity; try exact E; lia. Qed.
Lemma numf_S r b l : numf r (b :: l) = numf (r * 2 + Z.b2z b) l.
Proof. reflexivity. Qed.
Lemma get_loop_ok w A : forall s B r, 0 <= w -> rd_ok s -> rbits s = A ++ B -> Z.of_nat (length A) <= w -> 0 <= r < 2 ^ (w - Z.of_nat (length A)) ->
  exists s', get_loop w (length A) s r = (numf r A, s') /\ rbits s' = B /\ r_eof s' = r_eof s /\ rd_ok s'.
Proof.
  induction A as [|b A IH]; intros s B r W K E L R; [exists s; cbn; auto|]. cbn [length] in *. cbn [get_loop]. destruct (get_one_ok s b (A ++ B) K E) as (s1 & G1 & G2 & G3 & G4). rewrite G1. assert (2 ^ (w - Z.of_nat (length A)) = 2 * 2 ^ (w - Z.of_nat (S (length A)))) as P by (rewrite <- Z.pow_succ_r by lia; f_equal; lia).
  assert (2 ^ (w - Z.of_nat (length A)) <= 2 ^ w) as PL by (apply Z.pow_le_mono_r; lia). assert (0 <= Z.b2z b <= 1) as BB by (destruct b; cbn; lia). rewrite Z.mod_small by lia. destruct (IH s1 B (r * 2 + Z.b2z b) W G4 G2 ltac:(lia) ltac:(lia)) as (s2 & H1 & H2 & H3 & H4). exists s2. rewrite H1, numf_S. split; [reflexivity|]. split; [exact H2|]. split; [congruence | exact H4].
Qed.
Lemma get_loop_eof w n : forall s r, rd_ok s -> r_eof s = true -> r_eof (snd (get_loop w n s r)) = true /\ rd_ok (snd (get_loop w n s r)).
Proof. induction n as [|n IH]; intros s r K E; [split; assumption|]. cbn [get_loop]. destruct (get_one_eof s K E) as [X1 X2]. destruct (get_one s) as (b, s1). apply IH; assumption. Qed.
Lemma get_loop_end w n : forall s r, rd_ok s -> (length (rbits s) < n)%nat -> r_eof (snd (get_loop w n s r)) = true /\ rd_ok (snd (get_loop w n s r)).
Proof.
  induction n as [|n IH]; intros s r K L; [lia|]. cbn [get_loop]. destruct (rbits s) as [|b l] eqn:Q.
  - destruct (get_one_end s K Q) as [X1 X2]. destruct (get_one s) as (b, s1). apply get_loop_eof; assumption.
  - destruct (get_one_ok s b l K Q) as (s1 & G1 & G2 & G3 & G4). rewrite G1. apply IH; [exact G4|]. rewrite G2. cbn [length] in L. lia.
Qed.
Fixpoint cut (ws : list nat) (l : list bool) : list Z := match ws with [] => [] | w :: ws => numf 0 (firstn w l) :: cut ws (skipn w l) end.
Lemma read_ok w s : rd_ok s -> (w <= 64)%nat -> (w <= length (rbits s))%nat -> exists s', (if (32 <? w)%nat then get_long w s else get w s) = (numf 0 (firstn w (rbits s)), s') /\ rbits s' = skipn w (rbits s) /\ r_eof s' = r_eof s /\ rd_ok s'.
Proof.
  intros K W L. assert (length (firstn w (rbits s)) = w) as FL by (rewrite firstn_length; lia). destruct (32 <? w)%nat eqn:Q; [unfold get_long | unfold get].
  - pose proof (get_loop_ok 64 (firstn w (rbits s)) s (skipn w (rbits s)) 0 ltac:(lia) K ltac:(symmetry; apply firstn_skipn)) as G. rewrite FL in G. apply G; [lia|]. pose proof (Z.pow_pos_nonneg 2 (64 - Z.of_nat w) ltac:(lia) ltac:(lia)); lia.
  - pose proof (get_loop_ok 32 (firstn w (rbits s)) s (skipn w (rbits s)) 0 ltac:(lia) K ltac:(symmetry; apply firstn_skipn)) as G. rewrite FL in G. apply G; [lia|]. pose proof (Z.pow_pos_nonneg 2 (32 - Z.of_nat w) ltac:(lia) ltac:(lia)); lia.
Qed.
Lemma gets_eof ws : forall s, rd_ok s -> r_eof s = true -> r_eof (snd (gets ws s)) = true.
Proof.
  induction ws as [|w ws IH]; intros s K E; [exact E|]. cbn [gets]. assert (r_eof (snd (if (32 <? w)%nat then get_long w s else get w s)) = true /\ rd_ok (snd (if (32 <? w)%nat then get_long w s else get w s))) as X by (destruct (32 <? w)%nat; apply get_loop_eof; assumption). destruct (if (32 <? w)%nat then get_long w s else get w s) as (v, s1). cbn [snd] in X. specialize (IH s1 (proj2 X) (proj1 X)). destruct (gets ws s1). exact IH.
Qed.
Lemma gets_ok ws : forall s, rd_ok s -> Forall (fun w => w <= 64)%nat ws ->
  if (fold_right Nat.add O ws <=? length (rbits s))%nat then exists s', gets ws s = (cut ws (rbits s), s') /\ r_eof s' = r_eof s else r_eof (snd (gets ws s)) = true.
Proof.
  induction ws as [|w ws IH]; intros s K F; cbn [fold_right gets cut]; [exists s; split; reflexivity|]. inversion F as [|? ? F1 F2]; subst. destruct (w <=? length (rbits s))%nat eqn:Q.
  - destruct (read_ok w s K F1 ltac:(lia)) as (s1 & G1 & G2 & G3 & G4). rewrite G1. specialize (IH s1 G4 F2). rewrite G2, skipn_length in IH. destruct (w + fold_right Nat.add 0 ws <=? length (rbits s))%nat eqn:Q2.
    + assert (fold_right Nat.add 0 ws <=? length (rbits s) - w = true)%nat as Q3 by lia. rewrite Q3 in IH. destruct IH as (s2 & H1 & H2). rewrite H1. exists s2. split; [reflexivity | congruence].
    + assert (fold_right Nat.add 0 ws <=? length (rbits s) - w = false)%nat as Q3 by lia. rewrite Q3 in IH. destruct (gets ws s1). exact IH.
  - assert (w + fold_right Nat.add 0 ws <=? length (rbits s) = false)%nat as -> by lia. assert (r_eof (snd (if (32 <? w)%nat then get_long w s else get w s)) = true /\ rd_ok (snd (if (32 <? w)%nat then get_long w s else get w s))) as X by (destruct (32 <? w)%nat; apply get_loop_end; (assumption || lia)).
    destruct (if (32 <? w)%nat then get_long w s else get w s) as (v, s1). cbn [snd] in X. pose proof (gets_eof ws s1 (proj2 X) (proj1 X)) as Y. destruct (gets ws s1). exact Y.
Qed.
Lemma lows_length k b : length (lows k b) = k.
Proof. induction k; cbn; lia. Qed.
Lemma init_bits d : rbits (rd_init d) = concat (map (lows 8) d) /\ rd_ok (rd_init d) /\ length (rbits (rd_init d)) = (8 * length d)%nat.
Proof.
  assert (rbits (rd_init d) = concat (map (lows 8) d)) as E by reflexivity. split; [exact E|]. split; [unfold rd_ok; cbn; lia|]. rewrite E. clear E. induction d as [|b d IH]; [reflexivity|]. cbn [map concat]. rewrite app_length, IH, lows_length. cbn [length]. lia.
Qed.
Lemma numf_lows k : forall b r, numf r (lows k b) = r * 2 ^ Z.of_nat k + b mod 2 ^ Z.of_nat k.
Proof.
  induction k as [|k IH]; intros b r; [cbn [lows Z.of_nat numf fold_left]; rewrite Z.pow_0_r, Z.mod_1_r; lia|]. rewrite lows_S, numf_S, IH, Z.testbit_spec' by lia. replace (Z.of_nat (S k)) with (Z.of_nat k + 1) by lia. rewrite Z.pow_add_r by lia. change (2 ^ 1) with 2. pose proof (Z.pow_pos_nonneg 2 (Z.of_nat k) ltac:(lia) ltac:(lia)). rewrite Z.rem_mul_r by lia. ring.
Qed.
Lemma numf_app r a b : numf r (a ++ b) = numf (numf r a) b.
Proof. unfold numf. apply fold_left_app. Qed.
Lemma numf_byte r b : is_byte b -> numf r (lows 8 b) = r * 256 + b.
Proof. intros H. rewrite numf_lows. change (2 ^ Z.of_nat 8) with 256. unfold is_byte in H. rewrite Z.mod_small by lia. reflexivity. Qed.
Lemma numf_bytes l : forall r, Forall is_byte l -> numf r (concat (map (lows 8) l)) = fold_left (fun v b => v * 256 + b) l r.
Proof. induction l as [|b l IH]; intros r H; [reflexivity|]. inversion H; subst. cbn [map concat fold_left]. rewrite numf_app, numf_byte by assumption. apply IH. assumption. Qed.

(* ----- numbers *)
Lemma byte_cases (P : Z -> bool) : forallb P (map Z.of_nat (seq 0 256)) = true -> forall b, is_byte b -> P b = true.
Proof. intros H b Hb. unfold is_byte in Hb. rewrite forallb_forall in H. apply H. apply in_map_iff. exists (Z.to_nat b). split; [lia|]. apply in_seq. lia. Qed.
Lemma hex02_ok b : is_byte b -> hex02 b = hex2 b.
Proof. intros H. assert ((if list_eq_dec Z.eq_dec (hex02 b) (hex2 b) then true else false) = true) as E; [revert b H; apply (byte_cases (fun b => if list_eq_dec Z.eq_dec (hex02 b) (hex2 b) then true else false)); vm_compute; reflexivity|]. destruct (list_eq_dec _ _ _) as [X|X]; [exact X | discriminate]. Qed.
Definition dec_check (n : Z) : bool :=
  let l := dec n in negb (match l with [] => true | _ => false end) && forallb (fun c => (48 <=? c) && (c <=? 57)) l && (fold_left (fun v c => v * 10 + digit_value c) l 0 =? n) && (if hd 0 l =? 48 then if list_eq_dec Z.eq_dec l [48] then true else false else true) && (length l <=? 3)%nat.
Lemma dec_ok n : is_byte n -> number_text 10 n (dec n) /\ (length (dec n) <= 3)%nat.
Proof.
  intros H. assert (dec_check n = true) as E by (revert n H; apply byte_cases; vm_compute; reflexivity). unfold dec_check in E. cbv zeta in E. apply andb_prop in E. destruct E as [E E5]. apply andb_prop in E. destruct E as [E E4]. apply andb_prop in E. destruct E as [E E3]. apply andb_prop in E. destruct E as [E1 E2]. split; [|lia]. unfold number_text. split; [intros X; rewrite X in E1; discriminate|]. split; [|split; [lia|]].
  - rewrite forallb_forall in E2. apply Forall_forall. intros c Hc. specialize (E2 c Hc). unfold digit_ok, digit_value. destruct (c <? 58) eqn:Q; lia.
  - intros X. rewrite X in E4. change (48 =? 48) with true in E4. cbv iota in E4. destruct (list_eq_dec Z.eq_dec (dec n) [48]) as [Y|Y]; [exact Y | discriminate].
Qed.
Lemma hexd_ok n : 0 <= n < 16 -> digit_ok 16 (hexd n) /\ digit_value (hexd n) = n /\ (hexd n = 48 -> n = 0).
Proof. intros H. unfold hexd, digit_ok, digit_value. destruct (n <? 10) eqn:Q; [assert (48 + n <? 58 = true) as -> by lia | assert (87 + n <? 58 = false) as -> by lia]; split; try split; lia. Qed.
Lemma hex_f_ok fuel : forall n, 0 <= n < 16 ^ Z.of_nat fuel -> (1 <= fuel)%nat -> number_text 16 n (hex_f fuel n) /\ (0 < n -> hd 0 (hex_f fuel n) <> 48) /\ (length (hex_f fuel n) <= fuel)%nat.
Proof.
  induction fuel as [|fuel IH]; intros n H F; [lia|]. cbn [hex_f]. destruct (n <? 16) eqn:Q.
  - destruct (hexd_ok n ltac:(lia)) as (D1 & D2 & D3). split; [|split; [cbn [hd]; intros; lia | cbn; lia]]. unfold number_text. split; [discriminate|]. split; [constructor; [exact D1 | constructor]|]. split; [cbn [fold_left]; lia|]. cbn [hd]. intros X. rewrite X. reflexivity.
  - destruct fuel as [|fuel]; [change (16 ^ Z.of_nat 1) with 16 in H; lia|]. replace (Z.of_nat (S (S fuel))) with (Z.of_nat (S fuel) + 1) in H by lia. rewrite Z.pow_add_r in H by lia. change (16 ^ 1) with 16 in H. pose proof (Z.div_mod n 16 ltac:(lia)) as DM. pose proof (Z.mod_pos_bound n 16 ltac:(lia)) as MB. assert (0 < n / 16) as NP by (apply Z.div_str_pos; lia).
    assert (n / 16 < 16 ^ Z.of_nat (S fuel)) as NB by (apply Z.div_lt_upper_bound; lia). destruct (IH (n / 16) ltac:(lia) ltac:(lia)) as ((N1 & N2 & N3 & N4) & N5 & N6). set (l := hex_f (S fuel) (n / 16)) in *. clearbody l. destruct (hexd_ok (n mod 16) MB) as (D1 & D2 & D3). specialize (N5 NP). assert (hd 0 (l ++ [hexd (n mod 16)]) = hd 0 l) as HD by (destruct l; [congruence | reflexivity]).
    split; [|split; [intros _; rewrite HD; exact N5 | rewrite app_length; cbn [length]; lia]]. unfold number_text. split; [destruct l; discriminate|]. split; [apply Forall_app; split; [exact N2 | constructor; [exact D1 | constructor]]|]. split; [rewrite fold_left_app, N3; cbn [fold_left]; lia|]. rewrite HD. intros X. congruence.
Qed.
Lemma flip_bits k : forall res n, 0 <= n -> 0 <= res -> Z.of_nat k <= 32 -> res < 2 ^ (32 - Z.of_nat k) ->
  0 <= flip_loop k res n < 2 ^ 32 /\ forall i, 0 <= i -> Z.testbit (flip_loop k res n) i = if i <? Z.of_nat k then Z.testbit n (Z.of_nat k - 1 - i) else Z.testbit res (i - Z.of_nat k).
Proof.
  induction k as [|k IH]; intros res n Hn Hr K R; cbn [flip_loop].
  - split; [change (32 - Z.of_nat 0) with 32 in R; lia|]. intros i Hi. assert (i <? Z.of_nat 0 = false) as -> by lia. rewrite Z.sub_0_r. reflexivity.
  - pose proof (Z.mod_pos_bound n 2 ltac:(lia)) as MB. assert (2 ^ (32 - Z.of_nat k) = 2 * 2 ^ (32 - Z.of_nat (S k))) as P by (rewrite <- Z.pow_succ_r by lia; f_equal; lia). assert (2 ^ (32 - Z.of_nat k) <= 2 ^ 32) as PL by (apply Z.pow_le_mono_r; lia). rewrite (Z.mod_small (res * 2 + n mod 2)) by lia.
    destruct (IH (res * 2 + n mod 2) (n / 2) (Z.div_pos n 2 Hn ltac:(lia)) ltac:(lia) ltac:(lia) ltac:(lia)) as [I1 I2]. split; [exact I1|]. intros i Hi. rewrite I2 by exact Hi. destruct (i <? Z.of_nat k) eqn:Q.
    + assert (i <? Z.of_nat (S k) = true) as -> by lia. rewrite <- Z.div2_div, Z.div2_spec, Z.shiftr_spec by lia. f_equal. lia.
    + replace (res * 2 + n mod 2) with (2 * res + Z.b2z (Z.testbit n 0)). 2: { rewrite Z.bit0_mod. lia. } destruct (i <? Z.of_nat (S k)) eqn:Q2.
      * replace (i - Z.of_nat k) with 0 by lia. rewrite Z.testbit_0_r. f_equal. lia.
      * replace (i - Z.of_nat k) with (Z.succ (i - Z.of_nat (S k))) by lia. rewrite Z.testbit_succ_r by lia. reflexivity.
Qed.
Lemma flip_ok n : 0 <= n -> reversed32 n (flip32 n).
Proof. intros H. destruct (flip_bits 32 0 n H ltac:(lia) ltac:(lia) ltac:(cbn; lia)) as [B1 B2]. split; [exact B1|]. intros i Hi. unfold flip32. rewrite B2 by lia. assert (i <? Z.of_nat 32 = true) as -> by lia. reflexivity. Qed.
