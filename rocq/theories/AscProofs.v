(* Reads of a configuration, complete or cut. *)
From Coq Require Import ZArith List Bool Lia ZifyBool Arith.
From Verif Require Import Bytes NameModel NameProofs AscModel AscSpec.
Import ListNotations.
Open Scope Z_scope.

Lemma bits_lows w n : bits w n = lows w n.
Proof. induction w as [|w IH]; [reflexivity|]. cbn [bits lows]. rewrite IH. reflexivity. Qed.
Lemma bits_length w n : length (bits w n) = w.
Proof. rewrite bits_lows. apply lows_length. Qed.
Lemma numf_bits w n : 0 <= n < 2 ^ Z.of_nat w -> numf 0 (bits w n) = n.
Proof. intros H. rewrite bits_lows, numf_lows, Z.mod_small by exact H. lia. Qed.

(* [R] is what remains; its end [M] is not there *)
Definition st (M : list bool) (s : rd) (R : list bool) : Prop :=
  rd_ok s /\ ((r_eof s = true /\ M <> []) \/ (r_eof s = false /\ rbits s ++ M = R)).
Definition got {A} (M : list bool) (x : A * rd) (v : A) (R : list bool) : Prop :=
  rd_ok (snd x) /\ ((r_eof (snd x) = true /\ M <> []) \/ (r_eof (snd x) = false /\ fst x = v /\ rbits (snd x) ++ M = R)).
Lemma got_st {A} M (x : A * rd) v R : got M x v R -> st M (snd x) R.
Proof. intros (K & H). split; [exact K|]. tauto. Qed.
Lemma get_st M s w n R : st M s (bits w n ++ R) -> (w <= 32)%nat -> 0 <= n < 2 ^ Z.of_nat w -> got M (get w s) n R.
Proof.
  intros (K & H) W N. destruct H as [(E & NE) | (E & H)].
  - destruct (get_loop_eof 32 w s 0 K E) as [X1 X2]. split; [exact X2|]. left. split; assumption.
  - assert (length (bits w n) = w) as L by apply bits_length. destruct (w <=? length (rbits s))%nat eqn:Q.
    + destruct (read_ok w s K ltac:(lia) ltac:(lia)) as (s' & G1 & G2 & G3 & G4). assert ((32 <? w)%nat = false) as QW by lia. rewrite QW in G1. unfold got. rewrite G1. cbn [fst snd]. split; [exact G4|]. right. split; [congruence|].
      assert (firstn w (rbits s) = bits w n) as F. { assert (firstn w (rbits s ++ M) = bits w n) as X by (rewrite H, firstn_app, L, Nat.sub_diag, firstn_O, app_nil_r; rewrite <- L at 1; apply firstn_all). rewrite firstn_app in X. replace (w - length (rbits s))%nat with O in X by lia. rewrite firstn_O, app_nil_r in X. exact X. }
      split; [rewrite F; apply numf_bits, N|]. rewrite G2. assert (skipn w (rbits s ++ M) = R) as X by (rewrite H, skipn_app, L, Nat.sub_diag, skipn_O; rewrite <- L at 1; rewrite skipn_all; reflexivity). rewrite skipn_app in X. replace (w - length (rbits s))%nat with O in X by lia. rewrite skipn_O in X. exact X.
    + destruct (get_loop_end 32 w s 0 K ltac:(lia)) as [X1 X2]. split; [exact X2|]. left. split; [exact X1|]. intros ->. apply (f_equal (@length bool)) in H. rewrite !app_length, L in H. cbn [length] in H. lia.
Qed.
Lemma get_eof w s : rd_ok s -> r_eof s = true -> rd_ok (snd (get w s)) /\ r_eof (snd (get w s)) = true.
Proof. intros K E. destruct (get_loop_eof 32 w s 0 K E) as [X1 X2]. split; [exact X2 | exact X1]. Qed.
Local Opaque get bits.
Lemma type_eof s : rd_ok s -> r_eof s = true -> rd_ok (snd (read_type s)) /\ r_eof (snd (read_type s)) = true.
Proof.
  intros K E. unfold read_type. destruct (get_eof 5 s K E) as [K1 E1]. destruct (get 5 s) as (v, s1). cbn [snd] in *.
  destruct (v =? AOT_ESCAPE); [|split; assumption]. destruct (get_eof 6 s1 K1 E1) as [K2 E2]. destruct (get 6 s1) as (x, s2). split; assumption.
Qed.
Lemma rate_eof s : rd_ok s -> r_eof s = true -> rd_ok (snd (read_rate s)) /\ r_eof (snd (read_rate s)) = true.
Proof.
  intros K E. unfold read_rate. destruct (get_eof 4 s K E) as [K1 E1]. destruct (get 4 s) as (v, s1). cbn [snd] in *.
  destruct (v =? 15); [|split; assumption]. destruct (get_eof 24 s1 K1 E1) as [K2 E2]. destruct (get 24 s1) as (x, s2). cbn [snd] in *. split; assumption.
Qed.
Lemma type_st M s t R : st M s (type_bits t ++ R) -> type_ok t -> got M (read_type s) t R.
Proof.
  intros (K & [(E & NE) | (E & H)]) T; [destruct (type_eof s K E) as [A B]; split; [exact A | left; split; assumption]|].
  assert (st M s (type_bits t ++ R)) as S by (split; [exact K | right; split; assumption]). clear K E H.
  unfold read_type, type_bits in *. unfold AOT_ESCAPE. unfold type_ok in T. destruct (t <? 31) eqn:Q.
  - pose proof (get_st M s 5 t R S ltac:(lia) ltac:(change (2 ^ Z.of_nat 5) with 32; lia)) as G. destruct (get 5 s) as (v, s1). destruct G as (K & [(E & NE) | (E & V & RB)]); cbn [fst snd] in *.
    + destruct (v =? 31); [|split; [exact K | left; split; assumption]]. destruct (get_eof 6 s1 K E) as [K2 E2]. destruct (get 6 s1) as (x, s2). split; [exact K2 | left; split; assumption].
    + subst v. assert (t =? 31 = false) as -> by lia. split; [exact K | right; auto].
  - rewrite <- app_assoc in S. pose proof (get_st M s 5 31 (bits 6 (t - 32) ++ R) S ltac:(lia) ltac:(change (2 ^ Z.of_nat 5) with 32; lia)) as G. pose proof (got_st _ _ _ _ G) as S1. destruct (get 5 s) as (v, s1). cbn [snd] in S1. pose proof (get_st M s1 6 (t - 32) R S1 ltac:(lia) ltac:(change (2 ^ Z.of_nat 6) with 64; lia)) as G2. destruct G as (K & [(E & NE) | (E & V & RB)]); cbn [fst snd] in *.
    + destruct (v =? 31); [|split; [exact K | left; split; assumption]]. destruct (get_eof 6 s1 K E) as [K2 E2]. destruct (get 6 s1) as (x, s2). split; [exact K2 | left; split; assumption].
    + subst v. change (31 =? 31) with true. cbv iota. destruct (get 6 s1) as (x, s2). destruct G2 as (K2 & [(E2 & NE) | (E2 & X & RB2)]); cbn [fst snd] in *; (split; [exact K2|]); [left; split; assumption | right; split; [exact E2|]; split; [cbn [fst]; lia | exact RB2]].
Qed.
Lemma rate_st M s r R : st M s (rate_bits r ++ R) -> rate_ok r -> got M (read_rate s) (rate_index r) R.
Proof.
  intros (K & [(E & NE) | (E & H)]) T; [destruct (rate_eof s K E) as [A B]; split; [exact A | left; split; assumption]|].
  assert (st M s (rate_bits r ++ R)) as S by (split; [exact K | right; split; assumption]). clear K E H.
  unfold read_rate. destruct r as [i | hz]; cbn [rate_bits rate_ok rate_index] in *.
  - pose proof (get_st M s 4 i R S ltac:(lia) ltac:(change (2 ^ Z.of_nat 4) with 16; lia)) as G. destruct (get 4 s) as (v, s1). destruct G as (K & [(E & NE) | (E & V & RB)]); cbn [fst snd] in *.
    + destruct (v =? 15); [|split; [exact K | left; split; assumption]]. destruct (get_eof 24 s1 K E) as [K2 E2]. destruct (get 24 s1) as (x, s2). cbn [snd] in *. split; [exact K2 | left; split; assumption].
    + subst v. assert (i =? 15 = false) as -> by lia. split; [exact K | right; auto].
  - rewrite <- app_assoc in S. pose proof (get_st M s 4 15 (bits 24 hz ++ R) S ltac:(lia) ltac:(change (2 ^ Z.of_nat 4) with 16; lia)) as G. pose proof (got_st _ _ _ _ G) as S1. destruct (get 4 s) as (v, s1). cbn [snd] in S1. pose proof (get_st M s1 24 hz R S1 ltac:(lia) ltac:(change (Z.of_nat 24) with 24; lia)) as G2. destruct G as (K & [(E & NE) | (E & V & RB)]); cbn [fst snd] in K, E; try cbn [fst] in V; try cbn [snd] in RB.
    + clear G2. destruct (v =? 15); [|split; [exact K | left; split; assumption]]. destruct (get_eof 24 s1 K E) as [K2 E2]. destruct (get 24 s1) as (x, s2). cbn [snd] in *. split; [exact K2 | left; split; assumption].
    + subst v. change (15 =? 15) with true. cbv iota. destruct (get 24 s1) as (x, s2). cbn [fst snd] in *. destruct G2 as (K2 & [(E2 & NE) | (E2 & X & RB2)]); (split; [exact K2|]); [left; split; assumption | right; split; [exact E2|]; split; [reflexivity | exact RB2]].
Qed.
Local Transparent bits.
Lemma low_bits b t4 t3 t2 t1 t0 x y z : (Z.land (numf 0 [b; t4; t3; t2; t1; t0; x; y; z]) 63 =? 0) = true -> t2 = false /\ t1 = false /\ t0 = false.
Proof. destruct b, t4, t3, t2, t1, t0, x, y, z; vm_compute; intros H; try discriminate H; auto. Qed.
Lemma ps_extension s i t R : rd_ok s -> rbits s = bits 4 i ++ bits 5 t ++ R -> (3 <= length R)%nat -> t mod 8 <> 0 -> has_extension 29 s = true.
Proof.
  intros K H L T. unfold has_extension. change (29 =? AOT_SBR) with false. change (29 =? AOT_PS) with true. cbn [orb andb].
  destruct R as [|x [|y [|z R]]]; try (cbn [length] in L; lia).
  destruct (read_ok 3 s K ltac:(lia) ltac:(rewrite H, !app_length, !bits_length; lia)) as (s1 & G1 & G2 & G3 & G4). change (32 <? 3)%nat with false in G1. cbv iota in G1. rewrite G1. cbn [fst snd].
  assert (rbits s1 = [Z.testbit i 0; Z.testbit t 4; Z.testbit t 3; Z.testbit t 2; Z.testbit t 1; Z.testbit t 0; x; y; z] ++ R) as H1 by (rewrite G2, H; reflexivity).
  destruct (read_ok 9 s1 G4 ltac:(lia) ltac:(rewrite H1, app_length; cbn [length]; lia)) as (s2 & F1 & _). change (32 <? 9)%nat with false in F1. cbv iota in F1. rewrite F1. cbn [fst].
  rewrite H1.
  change (firstn 9 ([Z.testbit i 0; Z.testbit t 4; Z.testbit t 3; Z.testbit t 2; Z.testbit t 1; Z.testbit t 0; x; y; z] ++ R)) with [Z.testbit i 0; Z.testbit t 4; Z.testbit t 3; Z.testbit t 2; Z.testbit t 1; Z.testbit t 0; x; y; z].
  destruct (Z.land (numf 0 [Z.testbit i 0; Z.testbit t 4; Z.testbit t 3; Z.testbit t 2; Z.testbit t 1; Z.testbit t 0; x; y; z]) 63 =? 0) eqn:Q; [|rewrite andb_false_r; reflexivity].
  exfalso. apply T. destruct (low_bits _ _ _ _ _ _ _ _ _ Q) as (A2 & A1 & A0).
  pose proof (numf_lows 3 t 0) as N. change (lows 3 t) with [Z.testbit t 2; Z.testbit t 1; Z.testbit t 0] in N. rewrite A2, A1, A0 in N. change (2 ^ Z.of_nat 3) with 8 in N. change (numf 0 [false; false; false]) with 0 in N. lia.
Qed.
Local Opaque bits.
Lemma parse_cut M R x d : config_ok x -> bits_of_bytes d ++ M = config_bits x ++ R ->
  (match x with Extended true _ _ _ _ => M = [] /\ (3 <= length R)%nat | _ => True end) ->
  (mp4a_parse d = Some (config_says x) /\ exists Q, Q ++ M = R) \/ (mp4a_parse d = None /\ M <> []).
Proof.
  intros O H PS. destruct (init_bits d) as (I1 & I2 & _).
  assert (rbits (rd_init d) = bits_of_bytes d) as I3. { rewrite I1. unfold bits_of_bytes. f_equal. }
  assert (forall W, bits_of_bytes d ++ M = W -> st M (rd_init d) W) as S0. { intros W E. split; [exact I2|]. right. split; [reflexivity|]. rewrite I3. exact E. }
  specialize (S0 _ H). clear H I1 I3. unfold mp4a_parse. revert S0 I2. generalize (rd_init d). intros s0 S0 I2.
  destruct x as [t r c | ps r c ext t]; cbn [config_ok config_bits config_says] in *.
  - destruct O as (T & T5 & T29 & RO & C). rewrite <- !app_assoc in S0.
    pose proof (type_st _ _ _ _ S0 T) as G1. pose proof (got_st _ _ _ _ G1) as S1. destruct (read_type s0) as (v1, s1). cbn [snd] in S1.
    pose proof (rate_st _ _ _ _ S1 RO) as G2. pose proof (got_st _ _ _ _ G2) as S2.
    destruct G1 as (K1 & [(E1 & NE) | (E1 & V1 & _)]); cbn [fst snd] in *.
    { right. split; [|exact NE]. clear G2 S2. destruct (rate_eof s1 K1 E1) as [K2 E2]. destruct (read_rate s1) as (v2, s2). cbn [snd] in *. destruct (get_eof 4 s2 K2 E2) as [K3 E3]. destruct (get 4 s2) as (v3, s3). cbn [snd] in *. rewrite E3. reflexivity. }
    destruct (read_rate s1) as (v2, s2). cbn [snd] in S2.
    pose proof (get_st M s2 4 c R S2 ltac:(lia) ltac:(change (2 ^ Z.of_nat 4) with 16; lia)) as G3.
    destruct G2 as (K2 & [(E2 & NE) | (E2 & V2 & _)]); cbn [fst snd] in *.
    { right. split; [|exact NE]. clear G3. destruct (get_eof 4 s2 K2 E2) as [K3 E3]. destruct (get 4 s2) as (v3, s3). cbn [snd] in *. rewrite E3. reflexivity. }
    destruct (get 4 s2) as (v3, s3). destruct G3 as (K3 & [(E3 & NE) | (E3 & V3 & Q3)]); cbn [fst snd] in *; rewrite E3; [right; split; [reflexivity | exact NE]|].
    left. subst v1 v2 v3. assert (has_extension t s3 = false) as -> by (unfold has_extension, AOT_SBR, AOT_PS; assert (t =? 5 = false) as -> by lia; assert (t =? 29 = false) as -> by lia; reflexivity). split; [reflexivity | exists (rbits s3); exact Q3].
  - destruct O as (T & RO & XO & C & P). rewrite <- !app_assoc in S0.
    assert (type_ok (if ps then 29 else 5)) as TT by (unfold type_ok; destruct ps; lia).
    pose proof (type_st _ _ _ _ S0 TT) as G1. pose proof (got_st _ _ _ _ G1) as S1. destruct (read_type s0) as (v1, s1). cbn [snd] in S1.
    pose proof (rate_st _ _ _ _ S1 RO) as G2. pose proof (got_st _ _ _ _ G2) as S2.
    destruct G1 as (K1 & [(E1 & NE) | (E1 & V1 & _)]); cbn [fst snd] in *.
    { right. split; [|exact NE]. clear G2 S2. destruct (rate_eof s1 K1 E1) as [K2 E2]. destruct (read_rate s1) as (v2, s2). cbn [snd] in *. destruct (get_eof 4 s2 K2 E2) as [K3 E3]. destruct (get 4 s2) as (v3, s3). cbn [snd] in *. rewrite E3. reflexivity. }
    destruct (read_rate s1) as (v2, s2). cbn [snd] in S2.
    pose proof (get_st M s2 4 c _ S2 ltac:(lia) ltac:(change (2 ^ Z.of_nat 4) with 16; lia)) as G3. pose proof (got_st _ _ _ _ G3) as S3.
    destruct G2 as (K2 & [(E2 & NE) | (E2 & V2 & _)]); cbn [fst snd] in *.
    { right. split; [|exact NE]. clear G3 S3. destruct (get_eof 4 s2 K2 E2) as [K3 E3]. destruct (get 4 s2) as (v3, s3). cbn [snd] in *. rewrite E3. reflexivity. }
    destruct (get 4 s2) as (v3, s3). cbn [snd] in S3. destruct G3 as (K3 & [(E3 & NE) | (E3 & V3 & Q3)]); cbn [fst snd] in *; rewrite E3; [right; split; [reflexivity | exact NE]|].
    subst v1 v2 v3. assert (has_extension (if ps then 29 else 5) s3 = true) as ->.
    { destruct ps; [|reflexivity]. destruct PS as (-> & L). specialize (P eq_refl). destruct ext as [i|]; [|contradiction]. destruct P as (P1 & P2). rewrite app_nil_r in Q3. unfold type_bits in Q3. assert (t <? 31 = true) as TL by lia. rewrite TL in Q3. apply (ps_extension s3 i t R K3 Q3 L P2). }
    pose proof (rate_st _ _ _ _ S3 XO) as G4. pose proof (got_st _ _ _ _ G4) as S4. destruct (read_rate s3) as (v4, s4). cbn [snd] in S4.
    destruct G4 as (K4 & [(E4 & NE) | (E4 & _ & _)]); cbn [fst snd] in *; rewrite E4; [right; split; [reflexivity | exact NE]|].
    pose proof (type_st _ _ _ _ S4 T) as G5. destruct (read_type s4) as (v5, s5). destruct G5 as (K5 & [(E5 & NE) | (E5 & V5 & Q5)]); cbn [fst snd] in *; rewrite E5; [right; split; [reflexivity | exact NE]|].
    left. subst v5. split; [reflexivity | exists (rbits s5); exact Q5].
Qed.
