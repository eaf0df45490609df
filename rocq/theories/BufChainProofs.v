From Coq Require Import ZArith List Bool Arith Lia.
From Verif Require Import BufChainModel BufChainSpec.
Import ListNotations.

Lemma concat_cons_len (f : list Z) rest :
  length (concat (f :: rest)) = length f + length (concat rest).
Proof. cbn. apply app_length. Qed.

Lemma seek_ok : forall chain offset,
  offset < length (bytes_of chain) ->
  exists i o f, chain_seek chain offset = Some (i, o) /\
    nth_error chain i = Some f /\ o < length f /\
    length (bytes_of (firstn i chain)) + o = offset.
Proof.
  unfold bytes_of. induction chain as [|f rest IH]; intros offset H; [cbn in H; lia|].
  rewrite concat_cons_len in H. cbn [chain_seek].
  destruct (Nat.ltb_spec offset (length f)) as [Hlt|Hge].
  - exists 0, offset, f. cbn. repeat split; auto.
  - destruct (IH (offset - length f)) as (i & o & g & E & Hg & Ho & Hs); [lia|].
    rewrite E. exists (S i), o, g. repeat split; auto.
    cbn [firstn concat]. rewrite app_length. lia.
Qed.

Lemma seek_short : forall chain offset,
  length (bytes_of chain) <= offset -> chain_seek chain offset = None.
Proof.
  unfold bytes_of. induction chain as [|f rest IH]; intros offset H; [reflexivity|].
  rewrite concat_cons_len in H. cbn [chain_seek].
  destruct (Nat.ltb_spec offset (length f)) as [Hlt|Hge]; [lia|].
  rewrite IH by lia. reflexivity.
Qed.

Lemma skip_spec : forall chain size,
  fst (chain_skip chain size) = (size <=? length (bytes_of chain)) /\
  bytes_of (snd (chain_skip chain size)) = skipn size (bytes_of chain).
Proof.
  unfold bytes_of. induction chain as [|f rest IH]; intros size.
  - destruct size; cbn; auto.
  - rewrite concat_cons_len. destruct size as [|k]; [cbn; auto|].
    remember (S k) as size.
    assert (Hunf : chain_skip (f :: rest) size =
      if size <? length f then (true, skipn size f :: rest)
      else chain_skip rest (size - length f)) by (rewrite Heqsize; reflexivity).
    rewrite Hunf. destruct (Nat.ltb_spec size (length f)) as [Hlt|Hge].
    + cbn [fst snd concat]. split.
      * symmetry. apply Nat.leb_le. lia.
      * rewrite skipn_app. replace (size - length f) with 0 by lia. reflexivity.
    + destruct (IH (size - length f)) as [H1 H2]. rewrite H1, H2. split.
      * destruct (Nat.leb_spec (size - length f) (length (concat rest)));
          symmetry; [apply Nat.leb_le|apply Nat.leb_gt]; lia.
      * cbn [concat]. rewrite skipn_app, (skipn_all2 f) by lia. reflexivity.
Qed.

Lemma copy_spec : forall chain size,
  fst (fst (chain_copy chain size)) = (size <=? length (bytes_of chain)) /\
  snd (fst (chain_copy chain size)) = firstn size (bytes_of chain) /\
  bytes_of (snd (chain_copy chain size)) = skipn size (bytes_of chain).
Proof.
  unfold bytes_of. induction chain as [|f rest IH]; intros size.
  - destruct size; cbn; auto.
  - rewrite concat_cons_len. destruct size as [|k]; [cbn; auto|].
    remember (S k) as size.
    assert (Hunf : chain_copy (f :: rest) size =
      if size <? length f then (true, firstn size f, skipn size f :: rest)
      else match chain_copy rest (size - length f) with
           | (ok, out, h) => (ok, f ++ out, h) end) by (rewrite Heqsize; reflexivity).
    rewrite Hunf. destruct (Nat.ltb_spec size (length f)) as [Hlt|Hge].
    + cbn [fst snd concat]. repeat split.
      * symmetry. apply Nat.leb_le. lia.
      * rewrite firstn_app. replace (size - length f) with 0 by lia. cbn. rewrite app_nil_r. reflexivity.
      * rewrite skipn_app. replace (size - length f) with 0 by lia. reflexivity.
    + destruct (IH (size - length f)) as (H1 & H2 & H3).
      destruct (chain_copy rest (size - length f)) as [[ok out] h]. cbn [fst snd] in *.
      subst ok out. repeat split.
      * destruct (Nat.leb_spec (size - length f) (length (concat rest)));
          symmetry; [apply Nat.leb_le|apply Nat.leb_gt]; lia.
      * cbn [concat]. rewrite firstn_app, (firstn_all2 f) by lia. reflexivity.
      * rewrite H3. cbn [concat]. rewrite skipn_app, (skipn_all2 f) by lia. reflexivity.
Qed.

(* memcmp facts *)
Lemma memcmp_lex : forall n a b,
  n <= length a -> n <= length b -> lex (firstn n a) (firstn n b) (memcmp a b n).
Proof.
  induction n as [|n IH]; intros a b Ha Hb; [cbn; constructor|].
  destruct a as [|x a]; [cbn in Ha; lia|]. destruct b as [|y b]; [cbn in Hb; lia|].
  cbn [memcmp firstn]. destruct (Z.ltb_spec x y) as [H1|H1].
  - apply (lex_lt [] x y). exact H1.
  - destruct (Z.ltb_spec y x) as [H2|H2].
    + apply (lex_gt [] x y). lia.
    + assert (x = y) by lia. subst y.
      specialize (IH a b). cbn in Ha, Hb.
      destruct IH as [c|p u v c d Huv|p u v c d Huv]; try lia.
      * constructor.
      * apply (lex_lt (x :: p)). exact Huv.
      * apply (lex_gt (x :: p)). exact Huv.
Qed.

Lemma memcmp_app : forall a1 b1 a2 b2 n,
  length a1 = length b1 ->
  memcmp (a1 ++ a2) (b1 ++ b2) (length a1 + n) =
  (if Z.eqb (memcmp a1 b1 (length a1)) 0 then memcmp a2 b2 n
   else memcmp a1 b1 (length a1)).
Proof.
  induction a1 as [|x a1 IH]; intros [|y b1] a2 b2 n H; cbn in H; try lia.
  - reflexivity.
  - cbn [app length Nat.add memcmp]. destruct (Z.ltb x y); [reflexivity|].
    destruct (Z.ltb y x); [reflexivity|]. apply IH. lia.
Qed.

Lemma memcmp_firstn_l : forall n a b, memcmp a b n = memcmp (firstn n a) b n.
Proof.
  induction n as [|n IH]; intros a b; [reflexivity|].
  destruct a as [|x a]; [reflexivity|]. destruct b as [|y b]; [reflexivity|].
  cbn. rewrite <- IH. reflexivity.
Qed.

Lemma memcmp_app_r : forall n a b c, n <= length b -> memcmp a (b ++ c) n = memcmp a b n.
Proof.
  induction n as [|n IH]; intros a b c H; [reflexivity|].
  destruct b as [|y b]; [cbn in H; lia|].
  destruct a as [|x a]; [reflexivity|]. cbn in *. rewrite IH by lia. reflexivity.
Qed.

Lemma memcmp_app_l : forall n a b c, n <= length a -> memcmp (a ++ c) b n = memcmp a b n.
Proof.
  induction n as [|n IH]; intros a b c H; [reflexivity|].
  destruct a as [|x a]; [cbn in H; lia|].
  destruct b as [|y b]; [reflexivity|]. cbn in *. rewrite IH by lia. reflexivity.
Qed.

(* The loop equals one memcmp on the concatenation, with 1 for "too short" *)
Lemma compare_loop_spec : forall chain p,
  p <> [] ->
  chain_compare_loop chain p =
  (if length p <=? length (concat chain) then memcmp p (concat chain) (length p)
   else if Z.eqb (memcmp p (concat chain) (length (concat chain))) 0 then 1%Z
        else memcmp p (concat chain) (length (concat chain))).
Proof.
  induction chain as [|f rest IH]; intros p Hp.
  - cbn. destruct p; [congruence|reflexivity].
  - rewrite concat_cons_len. cbn [chain_compare_loop].
    destruct (Nat.leb_spec (length p) (length f)) as [Hle|Hgt].
    + destruct (Nat.leb_spec (length p) (length f + length (concat rest))); [|lia].
      cbn [concat]. rewrite memcmp_app_r by lia. reflexivity.
    + assert (Hp' : p = firstn (length f) p ++ skipn (length f) p)
        by (symmetry; apply firstn_skipn).
      assert (Hl1 : length (firstn (length f) p) = length f) by (rewrite firstn_length; lia).
      set (p1 := firstn (length f) p) in *. set (p2 := skipn (length f) p) in *.
      assert (Hl2 : length p2 = length p - length f) by (apply skipn_length).
      assert (Hm1 : memcmp p f (length f) = memcmp p1 f (length f)).
      { rewrite Hp'. apply memcmp_app_l. lia. }
      assert (Hne : p2 <> []) by (intros E; rewrite E in Hl2; cbn in Hl2; lia).
      assert (Hm : forall n, memcmp p (concat (f :: rest)) (length f + n) =
                (if Z.eqb (memcmp p1 f (length f)) 0 then memcmp p2 (concat rest) n
                 else memcmp p1 f (length f))).
      { intros n. rewrite Hp'. cbn [concat]. rewrite <- Hl1. apply memcmp_app. exact Hl1. }
      cbv zeta. rewrite Hm1, IH by exact Hne. rewrite Hm.
      replace (length p) with (length f + length p2) by lia. rewrite Hm.
      destruct (Z.eqb_spec (memcmp p1 f (length f)) 0) as [E|E].
      * destruct (Nat.leb_spec (length p2) (length (concat rest))),
          (Nat.leb_spec (length f + length p2) (length f + length (concat rest))); try lia;
          reflexivity.
      * destruct (Nat.leb_spec (length f + length p2) (length f + length (concat rest)));
          [reflexivity|].
        destruct (Z.eqb_spec (memcmp p1 f (length f)) 0); [congruence|reflexivity].
Qed.

Lemma compare_enough chain buf :
  length buf <= length (bytes_of chain) ->
  lex buf (firstn (length buf) (bytes_of chain)) (chain_compare chain buf).
Proof.
  intros H. unfold chain_compare. destruct buf as [|x buf']; [constructor|].
  remember (x :: buf') as buf. rewrite compare_loop_spec by (subst; discriminate).
  unfold bytes_of in *. destruct (Nat.leb_spec (length buf) (length (concat chain))); [|lia].
  replace buf with (firstn (length buf) buf) at 1 by apply firstn_all.
  apply memcmp_lex; lia.
Qed.

Lemma lex_eq_inv a b z : lex a b z -> (z = 0%Z <-> a = b).
Proof.
  destruct 1 as [a|p x y a b H|p x y a b H]; split; intros E; try discriminate; auto.
  - apply app_inv_head in E. injection E as -> _. lia.
  - apply app_inv_head in E. injection E as -> _. lia.
Qed.

Lemma compare_zero_iff chain buf :
  chain_compare chain buf = 0%Z <->
  (length buf <= length (bytes_of chain) /\ buf = firstn (length buf) (bytes_of chain)).
Proof.
  destruct (Nat.leb_spec (length buf) (length (bytes_of chain))) as [Hle|Hgt].
  - rewrite (lex_eq_inv _ _ _ (compare_enough chain buf Hle)). tauto.
  - split; [|lia]. intros E. exfalso. unfold chain_compare in E.
    destruct buf as [|x buf']; [cbn in Hgt; lia|].
    rewrite compare_loop_spec in E by discriminate. unfold bytes_of in *.
    destruct (Nat.leb_spec (length (x :: buf')) (length (concat chain))); [lia|].
    destruct (Z.eqb_spec (memcmp (x :: buf') (concat chain) (length (concat chain))) 0); [discriminate|congruence].
Qed.

Lemma compare_short chain buf :
  length (bytes_of chain) < length buf ->
  let z := chain_compare chain buf in
  (z = 1%Z /\ bytes_of chain = firstn (length (bytes_of chain)) buf) \/
  (z <> 0%Z /\ lex (firstn (length (bytes_of chain)) buf) (bytes_of chain) z).
Proof.
  intros H z. subst z. unfold chain_compare, bytes_of in *.
  destruct buf as [|x buf']; [cbn in H; lia|]. remember (x :: buf') as buf.
  rewrite compare_loop_spec by (subst; discriminate).
  destruct (Nat.leb_spec (length buf) (length (concat chain))); [lia|].
  pose proof (memcmp_lex (length (concat chain)) buf (concat chain)) as L.
  rewrite firstn_all in L.
  destruct (Z.eqb_spec (memcmp buf (concat chain) (length (concat chain))) 0) as [E|E].
  - left. split; [reflexivity|]. symmetry.
    apply (lex_eq_inv _ _ _ (L ltac:(lia) ltac:(lia))). exact E.
  - right. split; [exact E|]. apply L; lia.
Qed.

(* independence of the split *)
Lemma compare_split c1 c2 buf :
  bytes_of c1 = bytes_of c2 -> chain_compare c1 buf = chain_compare c2 buf.
Proof.
  unfold bytes_of, chain_compare. intros H. destruct buf; [reflexivity|].
  rewrite !compare_loop_spec by discriminate. rewrite H. reflexivity.
Qed.

Lemma get_tail_spec : forall k chain size,
  (0 <= size < 2 ^ 32)%Z -> k < length chain ->
  size = Z.of_nat (length (bytes_of (firstn (S k) chain))) ->
  (forall j, j < k -> length (bytes_of (firstn (S j) chain)) < length (bytes_of (firstn (S k) chain))) ->
  chain_get_tail chain size = Some k.
Proof.
  unfold bytes_of. induction k as [|k IH]; intros chain size Hr Hk Hs Hmin;
    (destruct chain as [|f rest]; [cbn in Hk; lia|]); cbn [chain_get_tail].
  - cbn in Hs. rewrite app_nil_r in Hs. subst size.
    rewrite Z.sub_diag, Z.mod_0_l by lia. reflexivity.
  - pose proof (Hmin 0 ltac:(lia)) as H0.
    rewrite !firstn_cons, !concat_cons_len in H0.
    change (length (concat (firstn 0 rest))) with 0 in H0.
    assert (Hs' : (size - Z.of_nat (length f) = Z.of_nat (length (concat (firstn (S k) rest))))%Z).
    { rewrite Hs. rewrite firstn_cons, concat_cons_len. lia. }
    rewrite Z.mod_small by lia.
    destruct (Z.leb_spec (size - Z.of_nat (length f)) 0); [lia|].
    rewrite (IH rest).
    + reflexivity.
    + lia.
    + cbn in Hk. lia.
    + exact Hs'.
    + intros j Hj. specialize (Hmin (S j) ltac:(lia)).
      rewrite (firstn_cons (S j)), (firstn_cons (S k)), !concat_cons_len in Hmin. lia.
Qed.

Lemma terminate_sound : forall chain size chain',
  (0 <= size < 2 ^ 32)%Z ->
  (Z.of_nat (length (bytes_of chain)) < 2 ^ 32)%Z ->
  chain_terminate chain size = Some chain' ->
  Z.of_nat (length (bytes_of chain')) = size /\
  bytes_of chain' = firstn (Z.to_nat size) (bytes_of chain).
Proof.
  intros chain size chain' Hr Hl H. unfold chain_terminate in H.
  destruct (chain_get_tail chain size) as [i|] eqn:E; [|discriminate].
  injection H as <-.
  assert (Hlen : Z.of_nat (length (bytes_of (firstn (S i) chain))) = size).
  { revert chain size Hr Hl E. unfold bytes_of. induction i as [|i IH]; intros chain size Hr Hl E;
      (destruct chain as [|f rest]; [discriminate|]); cbn [chain_get_tail] in E;
      rewrite concat_cons_len in Hl;
      destruct (Z.leb_spec ((size - Z.of_nat (length f)) mod 2 ^ 32) 0) as [Hle|Hgt].
    - cbn. rewrite app_nil_r.
      assert (Hz : ((size - Z.of_nat (length f)) mod 2 ^ 32 = 0)%Z)
        by (pose proof (Z.mod_pos_bound (size - Z.of_nat (length f)) (2 ^ 32)); lia).
      apply Z.mod_divide in Hz; [|lia]. destruct Hz as [q Hq].
      assert (q = 0)%Z by nia. lia.
    - destruct (chain_get_tail rest _); discriminate.
    - discriminate.
    - destruct (chain_get_tail rest ((size - Z.of_nat (length f)) mod 2 ^ 32)) as [j|] eqn:E2;
        [|discriminate]. injection E as ->.
      apply IH in E2; [|apply Z.mod_pos_bound; lia|lia].
      rewrite firstn_cons, concat_cons_len.
      assert (Hfl : length (concat (firstn (S i) rest)) <= length (concat rest)).
      { rewrite <- (firstn_skipn (S i) rest) at 2. rewrite concat_app, app_length. lia. }
      destruct (Z.lt_ge_cases size (Z.of_nat (length f))) as [Hlt|Hge].
      + exfalso. assert (Hm : ((size - Z.of_nat (length f)) mod 2 ^ 32 =
                  size - Z.of_nat (length f) + 2 ^ 32)%Z).
        { symmetry. apply (Z.mod_unique_pos _ _ (-1)); lia. }
        lia.
      + rewrite Z.mod_small in E2 by lia. lia. }
  split; [exact Hlen|].
  unfold bytes_of in *. rewrite <- (firstn_skipn (S i) chain) at 2.
  rewrite concat_app, firstn_app, <- Hlen, Nat2Z.id, firstn_all, Nat.sub_diag. cbn [firstn].
  rewrite app_nil_r. reflexivity.
Qed.
