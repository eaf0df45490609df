(* Parameter sets: the records that are accepted, and what is written. *)
From Coq Require Import ZArith List Bool Lia ZifyBool Arith.
From Verif Require Import Bytes CfgModel CfgSpec.
Import ListNotations.
Open Scope Z_scope.

Lemma firstn_all_app {A} (a b : list A) n : n = length a -> firstn n (a ++ b) = a.
Proof. intros ->. rewrite firstn_app, firstn_all, Nat.sub_diag, firstn_O, app_nil_r. reflexivity. Qed.
Lemma skipn_all_app {A} (a b : list A) n : n = length a -> skipn n (a ++ b) = b.
Proof. intros ->. rewrite skipn_app, skipn_all, Nat.sub_diag, skipn_O. reflexivity. Qed.
Lemma be16_app n r : 0 <= n < 65536 -> be16 (be 2 n ++ r) = n /\ skipn 2 (be 2 n ++ r) = r.
Proof. intros H. unfold be16. rewrite firstn_all_app by (rewrite be_length; reflexivity). rewrite skipn_all_app by (rewrite be_length; reflexivity). rewrite unbe_be. split; [apply Z.mod_small; exact H | reflexivity]. Qed.
Lemma start_codes_app a b : start_codes (a ++ b) = start_codes a ++ start_codes b.
Proof. unfold start_codes. rewrite map_app, concat_app. reflexivity. Qed.

Lemma units_ok us : forall rest size p, small us -> units_size (length us) (sized us ++ rest) size = Some (size + Z.of_nat (length (start_codes us)), rest) /\ units_write (length us) (sized us ++ rest) p = Some (p ++ start_codes us, rest).
Proof.
  induction us as [|u us IH]; intros rest size p S; [cbn; rewrite app_nil_r, Z.add_0_r; split; reflexivity|]. inversion S as [|? ? S1 S2]; subst. cbn [length units_size units_write].
  assert (sized (u :: us) ++ rest = be 2 (Z.of_nat (length u)) ++ u ++ sized us ++ rest) as E by (unfold sized; cbn [map concat]; rewrite <- !app_assoc; reflexivity). rewrite E. destruct (be16_app (Z.of_nat (length u)) (u ++ sized us ++ rest) ltac:(lia)) as [-> ->].
  assert (length (be 2 (Z.of_nat (length u)) ++ u ++ sized us ++ rest) = 2 + length (u ++ sized us ++ rest))%nat as L by (rewrite app_length, be_length; reflexivity). rewrite L. assert (Z.of_nat (2 + length (u ++ sized us ++ rest)) <? 2 = false) as -> by lia. assert (2 + length (u ++ sized us ++ rest) <? 2 = false)%nat as -> by lia.
  assert (Z.of_nat (length (u ++ sized us ++ rest)) <? Z.of_nat (length u) = false) as -> by (rewrite app_length; lia). rewrite Nat2Z.id, skipn_all_app, firstn_all_app by reflexivity.
  destruct (IH rest (size + 4 + Z.of_nat (length u)) (p ++ [0; 0; 0; 1] ++ u) S2) as [-> ->]. split; [|rewrite <- app_assoc; reflexivity]. f_equal. f_equal. change (start_codes (u :: us)) with ([0; 0; 0; 1] ++ u ++ start_codes us). rewrite !app_length. cbn [length]. lia.
Qed.
Lemma units_inv count : forall cur size s rest, Forall is_byte cur -> units_size count cur size = Some (s, rest) -> exists us, length us = count /\ small us /\ cur = sized us ++ rest.
Proof.
  induction count as [|count IH]; intros cur size s rest B H; cbn [units_size] in H.
  - injection H as _ <-. exists []. split; [reflexivity|]. split; [constructor | reflexivity].
  - destruct (Z.of_nat (length cur) <? 2) eqn:Q2; [discriminate|]. cbv zeta in H. set (n := be16 cur) in *. set (cur2 := skipn 2 cur) in *. destruct (Z.of_nat (length cur2) <? n) eqn:QN; [discriminate|].
    assert (cur = firstn 2 cur ++ cur2) as E by (symmetry; apply firstn_skipn). rewrite E in B. apply Forall_app in B. destruct B as [B1 B2]. assert (length (firstn 2 cur) = 2%nat) as L2 by (rewrite firstn_length; lia). pose proof (unbe_bound _ B1) as UB. rewrite L2 in UB. fold (be16 cur) in UB. fold n in UB. change (256 ^ Z.of_nat 2) with 65536 in UB.
    assert (be 2 n = firstn 2 cur) as EB by (rewrite <- L2 at 1; apply be_unbe, B1). assert (cur2 = firstn (Z.to_nat n) cur2 ++ skipn (Z.to_nat n) cur2) as E2 by (symmetry; apply firstn_skipn). rewrite E2 in B2. apply Forall_app in B2. destruct (IH _ _ _ _ (proj2 B2) H) as (us & U1 & U2 & U3).
    assert (length (firstn (Z.to_nat n) cur2) = Z.to_nat n) as LN by (rewrite firstn_length; lia). exists (firstn (Z.to_nat n) cur2 :: us). split; [cbn [length]; lia|]. split; [constructor; [rewrite LN; lia | exact U2]|]. unfold sized. cbn [map concat]. rewrite LN. rewrite Z2Nat.id by lia. rewrite EB, <- !app_assoc. rewrite E at 1. f_equal. rewrite E2 at 1. f_equal. exact U3.
Qed.

(* ----- H.264 *)
Lemma land31 c : 0 <= c -> 0 <= Z.land c 31 <= 31.
Proof. intros H. change 31 with (Z.ones 5). rewrite Z.land_ones by lia. pose proof (Z.mod_pos_bound c (2 ^ 5) ltac:(lia)). change (Z.ones 5) with 31. change (2 ^ 5) with 32 in *. lia. Qed.
Lemma avc_ok head a sps b pps more : length head = 5%nat -> Z.land a 31 = Z.of_nat (length sps) -> Z.land b 31 = Z.of_nat (length pps) -> small sps -> small pps ->
  avcc_size (avc_record head a sps b pps more) = Z.of_nat (length (start_codes (sps ++ pps))) /\ avcc_write (avc_record head a sps b pps more) = Some (start_codes (sps ++ pps)).
Proof.
  intros H A B S1 S2. unfold avcc_size, avcc_write, avc_record. assert (length (head ++ [a] ++ sized sps ++ [b] ++ sized pps ++ more) <? AVCC = false)%nat as -> by (rewrite app_length, H; unfold AVCC; lia). rewrite skipn_all_app by (rewrite H; reflexivity).
  change ([a] ++ sized sps ++ [b] ++ sized pps ++ more) with (a :: (sized sps ++ (b :: (sized pps ++ more)))). cbn [avcc_size_loop avcc_write_loop]. rewrite A, !Nat2Z.id.
  destruct (units_ok sps (b :: sized pps ++ more) 0 [] S1) as [-> ->]. rewrite B, !Nat2Z.id. destruct (units_ok pps more (0 + Z.of_nat (length (start_codes sps))) ([] ++ start_codes sps) S2) as [-> ->]. rewrite start_codes_app, app_length. split; [lia | reflexivity].
Qed.
Lemma avc_inv d : Forall is_byte d -> 0 < avcc_size d -> exists head a sps b pps more, d = avc_record head a sps b pps more /\ length head = 5%nat /\ Z.land a 31 = Z.of_nat (length sps) /\ Z.land b 31 = Z.of_nat (length pps) /\ small sps /\ small pps.
Proof.
  intros B. unfold avcc_size. destruct (length d <? AVCC)%nat eqn:QL; [lia|]. intros H. rewrite <- (firstn_skipn AVCC d). assert (length (firstn AVCC d) = 5%nat) as L by (rewrite firstn_length; unfold AVCC in *; lia). rewrite <- (firstn_skipn AVCC d) in B. apply Forall_app in B. destruct B as [_ B]. set (cur := skipn AVCC d) in *. cbn [avcc_size_loop] in H.
  destruct cur as [|a cur1]; [lia|]. inversion B as [|? ? Ba B1]; subst. destruct (units_size (Z.to_nat (Z.land a 31)) cur1 0) as [(s1, cur2)|] eqn:Q1; [|lia]. destruct (units_inv _ _ _ _ _ B1 Q1) as (sps & U1 & U2 & U3).
  destruct cur2 as [|b cur3]; [lia|]. rewrite U3 in B1. apply Forall_app in B1. destruct B1 as [_ B2]. inversion B2 as [|? ? Bb B3]; subst. destruct (units_size (Z.to_nat (Z.land b 31)) cur3 s1) as [(s2, more)|] eqn:Q2; [|lia]. destruct (units_inv _ _ _ _ _ B3 Q2) as (pps & V1 & V2 & V3).
  pose proof (land31 a ltac:(unfold is_byte in *; lia)). pose proof (land31 b ltac:(unfold is_byte in *; lia)). exists (firstn AVCC d), a, sps, b, pps, more. split; [unfold avc_record; rewrite V3; reflexivity|]. split; [exact L|]. split; [lia|]. split; [lia|]. split; assumption.
Qed.

(* ----- H.265 *)
Lemma arrays_ok arrays : forall more size p, Forall array_ok arrays -> hvcc_size_loop (length arrays) (concat (map array_bytes arrays) ++ more) size = size + Z.of_nat (length (start_codes (array_units arrays))) /\ hvcc_write_loop (length arrays) (concat (map array_bytes arrays) ++ more) p = Some (p ++ start_codes (array_units arrays)).
Proof.
  induction arrays as [|(t, us) arrays IH]; intros more size p S; [cbn; rewrite app_nil_r, Z.add_0_r; split; reflexivity|]. inversion S as [|? ? (S1 & S2) S3]; subst. cbn [fst snd] in *. cbn [length hvcc_size_loop hvcc_write_loop].
  assert (concat (map array_bytes ((t, us) :: arrays)) ++ more = t :: be 2 (Z.of_nat (length us)) ++ sized us ++ concat (map array_bytes arrays) ++ more) as E by (cbn [map concat]; unfold array_bytes at 1; cbn [fst snd app]; rewrite <- !app_assoc; reflexivity). rewrite E.
  assert (length (t :: be 2 (Z.of_nat (length us)) ++ sized us ++ concat (map array_bytes arrays) ++ more) = 3 + length (sized us ++ concat (map array_bytes arrays) ++ more))%nat as L by (cbn [length]; rewrite app_length, be_length; lia). rewrite L. assert (Z.of_nat (3 + length (sized us ++ concat (map array_bytes arrays) ++ more)) <? 3 = false) as -> by lia. assert (3 + length (sized us ++ concat (map array_bytes arrays) ++ more) <? 3 = false)%nat as -> by lia.
  rewrite skipn_cons, skipn_O. destruct (be16_app (Z.of_nat (length us)) (sized us ++ concat (map array_bytes arrays) ++ more) ltac:(lia)) as [-> ->]. rewrite Nat2Z.id. destruct (units_ok us (concat (map array_bytes arrays) ++ more) size p S2) as [-> ->]. destruct (IH more (size + Z.of_nat (length (start_codes us))) (p ++ start_codes us) S3) as [-> ->].
  change (array_units ((t, us) :: arrays)) with (us ++ array_units arrays). rewrite start_codes_app, app_length, app_assoc. split; [lia | reflexivity].
Qed.
Lemma hevc_ok head arrays more : length head = 22%nat -> (length arrays < 256)%nat -> Forall array_ok arrays ->
  hvcc_size (hevc_record head arrays more) = Z.of_nat (length (start_codes (array_units arrays))) /\ hvcc_write (hevc_record head arrays more) = Some (start_codes (array_units arrays)).
Proof.
  intros H A S. unfold hvcc_size, hvcc_write, hevc_record. assert (length (head ++ [Z.of_nat (length arrays)] ++ concat (map array_bytes arrays) ++ more) <=? HVCC_HEADER_SIZE = false)%nat as -> by (rewrite app_length, H; cbn [app length]; unfold HVCC_HEADER_SIZE; lia). rewrite skipn_all_app by (rewrite H; reflexivity). cbn [app]. rewrite Nat2Z.id. destruct (arrays_ok arrays more 0 [] S) as [-> ->]. split; [lia | reflexivity].
Qed.
Lemma arrays_inv types : forall cur size, Forall is_byte cur -> 0 < hvcc_size_loop types cur size -> exists arrays more, length arrays = types /\ Forall array_ok arrays /\ cur = concat (map array_bytes arrays) ++ more.
Proof.
  induction types as [|types IH]; intros cur size B H; cbn [hvcc_size_loop] in H; [exists [], cur; split; [reflexivity|]; split; [constructor | reflexivity]|].
  destruct (Z.of_nat (length cur) <? 3) eqn:Q3; [lia|]. cbv zeta in H. destruct cur as [|t cur]; [cbn [length] in Q3; lia|]. inversion B as [|? ? Bt B1]; subst. rewrite skipn_cons, skipn_O in H. cbn [length] in Q3. set (n := be16 cur) in *. set (cur2 := skipn 2 cur) in *.
  assert (cur = firstn 2 cur ++ cur2) as E by (symmetry; apply firstn_skipn). rewrite E in B1. apply Forall_app in B1. destruct B1 as [B1 B2]. assert (length (firstn 2 cur) = 2%nat) as L2 by (rewrite firstn_length; lia). pose proof (unbe_bound _ B1) as UB. rewrite L2 in UB. fold (be16 cur) in UB. fold n in UB. change (256 ^ Z.of_nat 2) with 65536 in UB.
  assert (be 2 n = firstn 2 cur) as EB by (rewrite <- L2 at 1; apply be_unbe, B1). destruct (units_size (Z.to_nat n) cur2 size) as [(s, rest)|] eqn:QU; [|lia]. destruct (units_inv _ _ _ _ _ B2 QU) as (us & U1 & U2 & U3). rewrite U3 in B2. apply Forall_app in B2. destruct (IH rest s (proj2 B2) H) as (arrays & more & A1 & A2 & A3).
  exists ((t, us) :: arrays), more. split; [cbn [length]; lia|]. split; [constructor; [split; cbn [snd]; [lia | exact U2] | exact A2]|]. cbn [map concat]. unfold array_bytes at 1. cbn [fst snd app]. rewrite U1, Z2Nat.id by lia. rewrite EB. rewrite E at 1. rewrite <- !app_assoc. rewrite U3, A3 at 1. reflexivity.
Qed.
Lemma hevc_inv d : Forall is_byte d -> 0 < hvcc_size d -> exists head arrays more, d = hevc_record head arrays more /\ length head = 22%nat /\ (length arrays < 256)%nat /\ Forall array_ok arrays.
Proof.
  intros B. unfold hvcc_size. destruct (length d <=? HVCC_HEADER_SIZE)%nat eqn:QL; [lia|]. intros H. rewrite <- (firstn_skipn HVCC_HEADER_SIZE d). assert (length (firstn HVCC_HEADER_SIZE d) = 22%nat) as L by (rewrite firstn_length; unfold HVCC_HEADER_SIZE in *; lia). rewrite <- (firstn_skipn HVCC_HEADER_SIZE d) in B. apply Forall_app in B. destruct B as [_ B]. set (cur := skipn HVCC_HEADER_SIZE d) in *.
  destruct cur as [|t cur1]; [lia|]. inversion B as [|? ? Bt B1]; subst. destruct (arrays_inv _ _ _ B1 H) as (arrays & more & A1 & A2 & A3). unfold is_byte in Bt. exists (firstn HVCC_HEADER_SIZE d), arrays, more. split; [unfold hevc_record; rewrite A1, Z2Nat.id, A3 by lia; reflexivity|]. split; [exact L|]. split; [lia | exact A2].
Qed.
Lemma start_codes_pos us : us <> [] -> 0 < Z.of_nat (length (start_codes us)).
Proof. destruct us as [|u us]; [congruence|]. intros _. cbn. lia. Qed.
Lemma parse_same p : parse_extra_data (Z.of_nat (length p)) (Some p) = if (length p =? 0)%nat then Refused else Parsed p.
Proof. unfold parse_extra_data. destruct p as [|x p]; [reflexivity|]. cbn [length Nat.eqb]. assert (Z.of_nat (S (length p)) <=? 0 = false) as -> by lia. rewrite Z.ltb_irrefl, Z.eqb_refl. reflexivity. Qed.
