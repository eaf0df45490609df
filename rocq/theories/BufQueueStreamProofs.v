From Coq Require Import ZArith List Bool Arith Lia.
From Verif Require Import BufQueueStreamModel BufQueueStreamSpec.
Import ListNotations.

Lemma skipn_nth_cons {A} (l : list A) i x :
  nth_error l i = Some x -> skipn i l = x :: skipn (S i) l.
Proof.
  revert l. induction i as [|i IH]; intros [|y l] H; cbn in *; try discriminate.
  - injection H as <-. reflexivity.
  - apply IH. exact H.
Qed.

Lemma firstn_S_nth {A} (l : list A) i x :
  nth_error l i = Some x -> firstn (S i) l = firstn i l ++ [x].
Proof.
  revert l. induction i as [|i IH]; intros [|y l] H; cbn in *; try discriminate.
  - injection H as <-. reflexivity.
  - f_equal. apply IH. exact H.
Qed.

Definition cat_res (nodes : list (list Z)) (i : nat) : nat :=
  length (concat (firstn i nodes)).

(* What the rest of the list from node i contributes *)
Lemma position_bound nodes s :
  usable nodes s -> position nodes s < length (flat nodes).
Proof.
  intros (Hn & node & Hnode & Hlt). unfold position, flat.
  rewrite <- (firstn_skipn (fst (bqs_pos s)) nodes) at 2.
  rewrite concat_app, app_length, (skipn_nth_cons _ _ _ Hnode). cbn.
  rewrite app_length. lia.
Qed.

Lemma read_loop_spec : forall rest i off size acc s,
  Forall (fun node => 0 < length node) rest ->
  (exists node r, rest = node :: r /\ off < length node) ->
  bqs_node s = i ->
  (size < length (concat rest) - off ->
     exists j o r, read_loop rest i off size acc s =
        SOk (mk_bqs (i + j) (i + j, o)) (acc ++ firstn size (skipn off (concat rest))) /\
        nth_error rest j = Some r /\ o < length r /\
        length (concat (firstn j rest)) + o = off + size) /\
  (length (concat rest) - off <= size ->
     read_loop rest i off size acc s =
       SFail (mk_bqs (i + (length rest - 1)) (bqs_pos s)) (acc ++ skipn off (concat rest))).
Proof.
  induction rest as [|node rest IH]; intros i off size acc s Hpos (nd & r & Heq & Hoff) Hs;
    [discriminate|]. injection Heq as <- <-.
  inversion Hpos as [|? ? Hn Hpos']; subst.
  assert (Hsplit : forall k, k <= length node - off ->
            firstn k (skipn off (concat (node :: rest))) = firstn k (skipn off node)).
  { intros k Hk. cbn. rewrite skipn_app, firstn_app.
    replace (k - length (skipn off node)) with 0 by (rewrite skipn_length; lia).
    cbn. apply app_nil_r. }
  assert (Hlen : length (concat (node :: rest)) = length node + length (concat rest))
    by (cbn; apply app_length).
  destruct size as [|size'].
  - split.
    + intros _. exists 0, off, node. cbn. rewrite Nat.add_0_r, app_nil_r.
      repeat split; auto.
    + intros H. lia.
  - remember (S size') as size eqn:Hsz.
    assert (Hunf : read_loop (node :: rest) (bqs_node s) off size acc s =
      (if length node <? off then SUB else
          let chunk := Nat.min (length node - off) size in
          let acc' := acc ++ firstn chunk (skipn off node) in
          if length node <=? off + chunk then
            match rest with
            | [] => SFail s acc'
            | _ :: _ => read_loop rest (S (bqs_node s)) 0 (size - chunk) acc'
                          (mk_bqs (S (bqs_node s)) (bqs_pos s))
            end
          else SOk (mk_bqs (bqs_node s) (bqs_node s, off + chunk)) acc')).
    { rewrite Hsz. reflexivity. }
    rewrite Hunf. clear Hunf.
    destruct (Nat.ltb_spec (length node) off); [lia|]. cbv zeta.
    destruct (Nat.leb_spec (length node) (off + Nat.min (length node - off) size)) as [Hle|Hgt].
    + assert (Hc : Nat.min (length node - off) size = length node - off) by lia.
      rewrite Hc.
      assert (Hfirst : firstn (length node - off) (skipn off node) = skipn off node)
        by (apply firstn_all2; rewrite skipn_length; lia).
      rewrite Hfirst.
      assert (Hsk : skipn off (concat (node :: rest)) = skipn off node ++ concat rest).
      { cbn. rewrite skipn_app. replace (off - length node) with 0 by lia. reflexivity. }
      destruct rest as [|n2 rest'].
      * split.
        -- intros Hlt. rewrite Hlen in Hlt. cbn in Hlt. lia.
        -- intros _. rewrite Hsk. cbn. rewrite app_nil_r, Nat.add_0_r.
           destruct s; reflexivity.
      * inversion Hpos' as [|? ? Hn2 _]; subst.
        specialize (IH (S (bqs_node s)) 0 (S size' - (length node - off))
                      (acc ++ skipn off node) (mk_bqs (S (bqs_node s)) (bqs_pos s)) Hpos').
        destruct IH as [IH1 IH2]; [exists n2, rest'; auto|reflexivity|].
        split.
        -- intros Hlt. destruct IH1 as (j & o & r & E & Hr & Ho & Hsum); [lia|].
           exists (S j), o, r. rewrite E. rewrite <- app_assoc.
           repeat split.
           ++ f_equal; [f_equal; [lia|f_equal; lia]|]. f_equal. rewrite Hsk.
              rewrite firstn_app, skipn_length.
              rewrite (firstn_all2 (n := S size') (skipn off node)) by (rewrite skipn_length; lia).
              reflexivity.
           ++ exact Hr.
           ++ exact Ho.
           ++ cbn [firstn concat] in *. rewrite app_length. lia.
        -- intros Hge. rewrite IH2 by lia. cbn [length bqs_pos]. rewrite Hsk, <- app_assoc.
           cbn [skipn]. f_equal. f_equal. lia.
    + assert (Hc : Nat.min (length node - off) size = size) by lia. rewrite Hc.
      split.
      * intros Hlt. exists 0, (off + size), node. cbn [firstn concat length nth_error].
        rewrite Nat.add_0_r. repeat split; try lia.
        f_equal. rewrite Hsplit by lia. reflexivity.
      * intros Hge. lia.
Qed.

Lemma uniform_pos n nodes k : uniform n nodes -> Forall (fun node : list Z => 0 < length node) (skipn k nodes).
Proof.
  intros [Hn H]. rewrite Forall_forall in *. intros x Hx.
  rewrite (H x); [lia|]. rewrite <- (firstn_skipn k nodes). apply in_or_app. right; exact Hx.
Qed.

Lemma flat_split nodes i node :
  nth_error nodes i = Some node ->
  flat nodes = concat (firstn i nodes) ++ concat (skipn i nodes).
Proof. intros _. unfold flat. rewrite <- concat_app, firstn_skipn. reflexivity. Qed.

Lemma skipn_flat nodes i off node :
  nth_error nodes i = Some node ->
  skipn (length (concat (firstn i nodes)) + off) (flat nodes) = skipn off (concat (skipn i nodes)).
Proof.
  intros H. rewrite (flat_split _ _ _ H), skipn_app.
  rewrite skipn_all2 by lia. cbn. f_equal. lia.
Qed.

Lemma nth_error_skipn {A} (l : list A) i j : nth_error (skipn i l) j = nth_error l (i + j).
Proof.
  revert l. induction i as [|i IH]; intros l; [reflexivity|].
  destruct l as [|x l]; [destruct j; reflexivity|]. cbn. apply IH.
Qed.

Lemma firstn_add {A} (l : list A) i j : firstn (i + j) l = firstn i l ++ firstn j (skipn i l).
Proof.
  revert l. induction i as [|i IH]; intros l; [reflexivity|].
  destruct l as [|x l]; cbn; [destruct j; reflexivity|]. f_equal. apply IH.
Qed.

Lemma concat_firstn_add (nodes : list (list Z)) i j :
  length (concat (firstn (i + j) nodes)) =
  length (concat (firstn i nodes)) + length (concat (firstn j (skipn i nodes))).
Proof.
  rewrite firstn_add, concat_app, app_length. reflexivity.
Qed.

Lemma read_ok n nodes s size :
  uniform n nodes -> usable nodes s ->
  position nodes s + size < length (flat nodes) ->
  exists s', bqs_read nodes s size =
      SOk s' (firstn size (skipn (position nodes s) (flat nodes))) /\
    usable nodes s' /\ position nodes s' = position nodes s + size.
Proof.
  intros Hu Hus Hlt. pose proof Hus as (Hn & node & Hnode & Hoff).
  unfold bqs_read. destruct size as [|size'].
  { exists s. rewrite Nat.add_0_r. split; [reflexivity|]. split; [exact Hus|reflexivity]. }
  remember (S size') as size. rewrite Hn, Nat.eqb_refl.
  set (i := fst (bqs_pos s)) in *. set (off := snd (bqs_pos s)) in *.
  destruct (read_loop_spec (skipn i nodes) i off size [] s) as [H1 _].
  - eapply uniform_pos; exact Hu.
  - exists node, (skipn (S i) nodes). split; [apply skipn_nth_cons; exact Hnode|exact Hoff].
  - exact Hn.
  - unfold position in *. fold i off in Hlt |- *.
    rewrite (flat_split _ _ _ Hnode), app_length in Hlt.
    destruct H1 as (j & o & r & E & Hr & Ho & Hsum); [lia|].
    rewrite E. eexists. split; [|split].
    + f_equal. cbn [app]. rewrite (skipn_flat _ _ _ _ Hnode). reflexivity.
    + split; [reflexivity|]. exists r. cbn. split; [|exact Ho].
      rewrite <- nth_error_skipn. exact Hr.
    + cbn. rewrite concat_firstn_add. lia.
Qed.

Lemma read_fail n nodes s size :
  uniform n nodes -> usable nodes s ->
  length (flat nodes) <= position nodes s + size ->
  exists s', bqs_read nodes s size = SFail s' (skipn (position nodes s) (flat nodes)) /\
    bqs_pos s' = bqs_pos s /\ bqs_node s' = length nodes - 1.
Proof.
  intros Hu Hus Hge. pose proof Hus as (Hn & node & Hnode & Hoff).
  pose proof (position_bound _ _ Hus) as Hb.
  unfold bqs_read. destruct size as [|size']; [lia|].
  remember (S size') as size. rewrite Hn, Nat.eqb_refl.
  set (i := fst (bqs_pos s)) in *. set (off := snd (bqs_pos s)) in *.
  destruct (read_loop_spec (skipn i nodes) i off size [] s) as [_ H2].
  - eapply uniform_pos; exact Hu.
  - exists node, (skipn (S i) nodes). split; [apply skipn_nth_cons; exact Hnode|exact Hoff].
  - exact Hn.
  - unfold position in *. fold i off in Hge, Hb |- *.
    rewrite (flat_split _ _ _ Hnode), app_length in Hge, Hb.
    rewrite H2 by lia. eexists. split; [|split].
    + f_equal. cbn [app]. rewrite (skipn_flat _ _ _ _ Hnode). reflexivity.
    + reflexivity.
    + cbn. rewrite skipn_length.
      assert (i < length nodes) by (apply nth_error_Some; congruence). lia.
Qed.

(* skip moves exactly as read does *)
Lemma skip_loop_spec : forall rest i off size s,
  Forall (fun node => 0 < length node) rest ->
  (exists node r, rest = node :: r /\ off < length node) ->
  bqs_node s = i ->
  (size < length (concat rest) - off ->
     exists j o r, skip_loop rest i off size s = SOk (mk_bqs (i + j) (i + j, o)) tt /\
        nth_error rest j = Some r /\ o < length r /\
        length (concat (firstn j rest)) + o = off + size) /\
  (length (concat rest) - off <= size ->
     skip_loop rest i off size s = SFail (mk_bqs (i + (length rest - 1)) (bqs_pos s)) tt).
Proof.
  induction rest as [|node rest IH]; intros i off size s Hpos (nd & r & Heq & Hoff) Hs;
    [discriminate|]. injection Heq as <- <-.
  inversion Hpos as [|? ? Hn Hpos']; subst.
  assert (Hlen : length (concat (node :: rest)) = length node + length (concat rest))
    by (cbn; apply app_length).
  cbn [skip_loop].
  destruct (Nat.ltb_spec (length node) off); [lia|].
  destruct (Nat.ltb_spec size (length node - off)) as [Hlt|Hge].
  - split.
    + intros _. exists 0, (off + size), node. cbn [firstn concat length nth_error].
      rewrite Nat.add_0_r. repeat split; lia.
    + intros H'. lia.
  - destruct rest as [|n2 rest'].
    + split.
      * intros Hlt. rewrite Hlen in Hlt. cbn in Hlt. lia.
      * intros _. cbn. rewrite Nat.add_0_r. destruct s; reflexivity.
    + inversion Hpos' as [|? ? Hn2 _]; subst.
      specialize (IH (S (bqs_node s)) 0 (size - (length node - off))
                    (mk_bqs (S (bqs_node s)) (bqs_pos s)) Hpos').
      destruct IH as [IH1 IH2]; [exists n2, rest'; auto|reflexivity|].
      split.
      * intros Hlt. destruct IH1 as (j & o & r & E & Hr & Ho & Hsum); [lia|].
        exists (S j), o, r. rewrite E. repeat split.
        -- f_equal. f_equal; [lia|f_equal; lia].
        -- exact Hr.
        -- exact Ho.
        -- cbn [firstn concat] in *. rewrite app_length. lia.
      * intros Hge2. rewrite IH2 by lia. cbn [length bqs_pos]. f_equal. f_equal. lia.
Qed.

Lemma skip_ok n nodes s size :
  uniform n nodes -> usable nodes s ->
  position nodes s + size < length (flat nodes) ->
  exists s', bqs_skip nodes s size = SOk s' tt /\
    usable nodes s' /\ position nodes s' = position nodes s + size.
Proof.
  intros Hu Hus Hlt. pose proof Hus as (Hn & node & Hnode & Hoff).
  unfold bqs_skip. rewrite Hn, Nat.eqb_refl.
  set (i := fst (bqs_pos s)) in *. set (off := snd (bqs_pos s)) in *.
  destruct (skip_loop_spec (skipn i nodes) i off size s) as [H1 _].
  - eapply uniform_pos; exact Hu.
  - exists node, (skipn (S i) nodes). split; [apply skipn_nth_cons; exact Hnode|exact Hoff].
  - exact Hn.
  - unfold position in *. fold i off in Hlt |- *.
    rewrite (flat_split _ _ _ Hnode), app_length in Hlt.
    destruct H1 as (j & o & r & E & Hr & Ho & Hsum); [lia|].
    rewrite E. eexists. split; [reflexivity|split].
    + split; [reflexivity|]. exists r. cbn. split; [|exact Ho].
      rewrite <- nth_error_skipn. exact Hr.
    + cbn. rewrite concat_firstn_add. lia.
Qed.

Lemma skip_fail n nodes s size :
  uniform n nodes -> usable nodes s ->
  length (flat nodes) <= position nodes s + size ->
  exists s', bqs_skip nodes s size = SFail s' tt /\ bqs_pos s' = bqs_pos s.
Proof.
  intros Hu Hus Hge. pose proof Hus as (Hn & node & Hnode & Hoff).
  pose proof (position_bound _ _ Hus) as Hb.
  unfold bqs_skip. rewrite Hn, Nat.eqb_refl.
  set (i := fst (bqs_pos s)) in *. set (off := snd (bqs_pos s)) in *.
  destruct (skip_loop_spec (skipn i nodes) i off size s) as [_ H2].
  - eapply uniform_pos; exact Hu.
  - exists node, (skipn (S i) nodes). split; [apply skipn_nth_cons; exact Hnode|exact Hoff].
  - exact Hn.
  - unfold position in *. fold i off in Hge, Hb |- *.
    rewrite (flat_split _ _ _ Hnode), app_length in Hge, Hb.
    rewrite H2 by lia. eexists. split; reflexivity.
Qed.

(* ---- write ---- *)

Lemma overwrite_length node data off :
  off + length data <= length node -> length (overwrite node data off) = length node.
Proof.
  intros H. unfold overwrite. rewrite !app_length, firstn_length, skipn_length. lia.
Qed.

Lemma write_loop_spec : forall rest i off data s,
  Forall (fun node => 0 < length node) rest ->
  (exists node r, rest = node :: r /\ off < length node) ->
  bqs_node s = i ->
  (length data < length (concat rest) - off ->
     exists j o r rest', write_loop rest i off data s = SOk (mk_bqs (i + j) (i + j, o)) rest' /\
        nth_error rest j = Some r /\ o < length r /\
        length (concat (firstn j rest)) + o = off + length data /\
        concat rest' = firstn off (concat rest) ++ data ++ skipn (off + length data) (concat rest) /\
        map (@length Z) rest' = map (@length Z) rest) /\
  (length (concat rest) - off <= length data ->
     exists rest', write_loop rest i off data s =
       SFail (mk_bqs (i + (length rest - 1)) (bqs_pos s)) rest' /\
       concat rest' = firstn off (concat rest) ++ firstn (length (concat rest) - off) data /\
       map (@length Z) rest' = map (@length Z) rest).
Proof.
  induction rest as [|node rest IH]; intros i off data s Hpos (nd & r & Heq & Hoff) Hs;
    [discriminate|]. injection Heq as <- <-.
  inversion Hpos as [|? ? Hn Hpos']; subst.
  assert (Hlen : length (concat (node :: rest)) = length node + length (concat rest))
    by (cbn; apply app_length).
  destruct data as [|d data'].
  - split.
    + intros _. exists 0, off, node, (node :: rest). cbn [write_loop firstn concat length nth_error app].
      rewrite !Nat.add_0_r. repeat split; auto.
      rewrite <- (firstn_skipn off (node ++ concat rest)) at 1. reflexivity.
    + intros H. cbn [length] in H. lia.
  - remember (d :: data') as data eqn:Hd.
    assert (Hdl : 0 < length data) by (rewrite Hd; cbn; lia).
    assert (Hunf : write_loop (node :: rest) (bqs_node s) off data s =
      (if length node <? off then SUB else
          let chunk := Nat.min (length node - off) (length data) in
          let node' := overwrite node (firstn chunk data) off in
          if length node <=? off + chunk then
            match rest with
            | [] => SFail s [node']
            | _ :: _ =>
                match write_loop rest (S (bqs_node s)) 0 (skipn chunk data)
                        (mk_bqs (S (bqs_node s)) (bqs_pos s)) with
                | SOk s' r => SOk s' (node' :: r)
                | SFail s' r => SFail s' (node' :: r)
                | SUB => SUB
                end
            end
          else SOk (mk_bqs (bqs_node s) (bqs_node s, off + chunk)) (node' :: rest))).
    { rewrite Hd. reflexivity. }
    rewrite Hunf. clear Hunf.
    destruct (Nat.ltb_spec (length node) off); [lia|]. cbv zeta.
    destruct (Nat.leb_spec (length node) (off + Nat.min (length node - off) (length data))) as [Hle|Hgt].
    + assert (Hc : Nat.min (length node - off) (length data) = length node - off) by lia.
      rewrite Hc. set (c := length node - off) in *.
      assert (Hfl : length (firstn c data) = c) by (rewrite firstn_length; lia).
      assert (Hov : overwrite node (firstn c data) off = firstn off node ++ firstn c data).
      { unfold overwrite. rewrite Hfl. rewrite (skipn_all2 node) by lia. rewrite app_nil_r. reflexivity. }
      assert (Hovl : length (overwrite node (firstn c data) off) = length node)
        by (apply overwrite_length; lia).
      assert (Hf1 : firstn off (concat (node :: rest)) = firstn off node).
      { cbn. rewrite firstn_app. replace (off - length node) with 0 by lia. cbn. apply app_nil_r. }
      destruct rest as [|n2 rest'].
      * split.
        -- intros Hlt. rewrite Hlen in Hlt. cbn in Hlt. lia.
        -- intros _. eexists. split; [|split].
           ++ cbn. rewrite Nat.add_0_r. destruct s; reflexivity.
           ++ rewrite Hf1, Hov. cbn. rewrite !app_nil_r. reflexivity.
           ++ cbn [map]. rewrite Hovl. reflexivity.
      * inversion Hpos' as [|? ? Hn2 _]; subst x l.
        specialize (IH (S (bqs_node s)) 0 (skipn c data)
                      (mk_bqs (S (bqs_node s)) (bqs_pos s)) Hpos').
        destruct IH as [IH1 IH2]; [exists n2, rest'; auto|reflexivity|].
        rewrite skipn_length in IH1, IH2.
        split.
        -- intros Hlt. destruct IH1 as (j & o & r & w & E & Hr & Ho & Hsum & Hcat & Hmap); [lia|].
           exists (S j), o, r, (overwrite node (firstn c data) off :: w). rewrite E.
           split; [f_equal; f_equal; [lia|f_equal; lia]|].
           split; [exact Hr|]. split; [exact Ho|].
           split; [cbn [firstn concat] in *; rewrite app_length; lia|].
           split.
           ++ rewrite Hf1. cbn [concat]. rewrite Hov, Hcat.
              set (R := concat (n2 :: rest')).
              change (concat (node :: n2 :: rest')) with (node ++ R).
              cbn [firstn app]. rewrite <- app_assoc. f_equal.
              rewrite (skipn_app _ node R), (skipn_all2 node) by lia. cbn [app].
              rewrite app_assoc, firstn_skipn. f_equal. f_equal. lia.
           ++ cbn [map] in *. rewrite Hovl, Hmap. reflexivity.
        -- intros Hge. destruct IH2 as (w & E & Hcat & Hmap); [lia|].
           exists (overwrite node (firstn c data) off :: w). rewrite E.
           split; [cbn [length bqs_pos]; f_equal; f_equal; lia|].
           split.
           ++ rewrite Hf1. rewrite Hlen. set (R := concat (n2 :: rest')) in *.
              change (concat (overwrite node (firstn c data) off :: w))
                with (overwrite node (firstn c data) off ++ concat w).
              rewrite Hov, Hcat. cbn [firstn app].
              rewrite <- app_assoc. f_equal. rewrite Nat.sub_0_r.
              replace (length node + length R - off) with (c + length R) by lia.
              rewrite firstn_add. reflexivity.
           ++ cbn [map] in *. rewrite Hovl, Hmap. reflexivity.
    + assert (Hc : Nat.min (length node - off) (length data) = length data) by lia. rewrite Hc.
      rewrite firstn_all.
      split.
      * intros Hlt. exists 0, (off + length data), node, (overwrite node data off :: rest).
        cbn [firstn length nth_error]. rewrite Nat.add_0_r.
        split; [reflexivity|]. split; [reflexivity|]. split; [lia|]. split; [cbn; lia|].
        split.
        -- cbn [concat]. unfold overwrite. rewrite !firstn_app, !skipn_app.
           replace (off - length node) with 0 by lia.
           replace (off + length data - length node) with 0 by lia. cbn [firstn skipn].
           rewrite app_nil_r, <- !app_assoc. reflexivity.
        -- cbn [map]. rewrite overwrite_length by lia. reflexivity.
      * intros Hge. lia.
Qed.

Lemma firstn_flat nodes i off node :
  nth_error nodes i = Some node ->
  firstn (length (concat (firstn i nodes)) + off) (flat nodes) =
  concat (firstn i nodes) ++ firstn off (concat (skipn i nodes)).
Proof.
  intros H. rewrite (flat_split _ _ _ H), firstn_app.
  rewrite firstn_all2 by lia. f_equal. f_equal. lia.
Qed.

Lemma write_ok n nodes s data :
  uniform n nodes -> usable nodes s ->
  position nodes s + length data < length (flat nodes) ->
  exists s' nodes', bqs_write nodes s data = SOk s' nodes' /\
    flat nodes' = stored (flat nodes) data (position nodes s) /\
    map (@length Z) nodes' = map (@length Z) nodes /\
    bqs_node s' = fst (bqs_pos s') /\
    position nodes s' = position nodes s + length data /\ usable nodes s'.
Proof.
  intros Hu Hus Hlt. pose proof Hus as (Hn & node & Hnode & Hoff).
  unfold bqs_write, stored.
  rewrite (firstn_all2 (n := length (flat nodes) - position nodes s) data) by lia.
  destruct data as [|d data'].
  { exists s, nodes. cbn [length app]. rewrite Nat.add_0_r, firstn_skipn. tauto. }
  remember (d :: data') as data. rewrite Hn, Nat.eqb_refl.
  set (i := fst (bqs_pos s)) in *. set (off := snd (bqs_pos s)) in *.
  destruct (write_loop_spec (skipn i nodes) i off data s) as [H1 _].
  - eapply uniform_pos; exact Hu.
  - exists node, (skipn (S i) nodes). split; [apply skipn_nth_cons; exact Hnode|exact Hoff].
  - exact Hn.
  - unfold position in *. fold i off in Hlt |- *.
    rewrite (flat_split _ _ _ Hnode), app_length in Hlt.
    destruct H1 as (j & o & r & w & E & Hr & Ho & Hsum & Hcat & Hmap); [lia|].
    rewrite E. eexists. eexists. split; [reflexivity|]. split; [|split; [|split; [|split]]].
    + unfold flat at 1. rewrite concat_app, Hcat, (firstn_flat _ _ _ _ Hnode).
      rewrite <- Nat.add_assoc, (skipn_flat _ _ _ _ Hnode), <- app_assoc. reflexivity.
    + rewrite map_app, Hmap, <- map_app, firstn_skipn. reflexivity.
    + reflexivity.
    + cbn. rewrite concat_firstn_add. lia.
    + split; [reflexivity|]. exists r. cbn. split; [|exact Ho].
      rewrite <- nth_error_skipn. exact Hr.
Qed.

Lemma write_fail n nodes s data :
  uniform n nodes -> usable nodes s ->
  length (flat nodes) <= position nodes s + length data ->
  exists s' nodes', bqs_write nodes s data = SFail s' nodes' /\
    flat nodes' = stored (flat nodes) data (position nodes s) /\
    map (@length Z) nodes' = map (@length Z) nodes /\ bqs_pos s' = bqs_pos s.
Proof.
  intros Hu Hus Hge. pose proof Hus as (Hn & node & Hnode & Hoff).
  pose proof (position_bound _ _ Hus) as Hb.
  unfold bqs_write, stored.
  rewrite (skipn_all2 (flat nodes)) by lia. rewrite app_nil_r.
  destruct data as [|d data']; [cbn [length] in Hge; lia|].
  remember (d :: data') as data. rewrite Hn, Nat.eqb_refl.
  set (i := fst (bqs_pos s)) in *. set (off := snd (bqs_pos s)) in *.
  destruct (write_loop_spec (skipn i nodes) i off data s) as [_ H2].
  - eapply uniform_pos; exact Hu.
  - exists node, (skipn (S i) nodes). split; [apply skipn_nth_cons; exact Hnode|exact Hoff].
  - exact Hn.
  - unfold position in *. fold i off in Hge, Hb |- *.
    pose proof (flat_split _ _ _ Hnode) as Hfs.
    rewrite Hfs, app_length in Hge, Hb.
    destruct H2 as (w & E & Hcat & Hmap); [lia|].
    rewrite E. eexists. eexists. split; [reflexivity|]. split; [|split].
    + unfold flat at 1. rewrite concat_app, Hcat, (firstn_flat _ _ _ _ Hnode), <- app_assoc.
      f_equal. f_equal. f_equal. rewrite Hfs, app_length. lia.
    + rewrite map_app, Hmap, <- map_app, firstn_skipn. reflexivity.
    + reflexivity.
Qed.

(* A failed read leaves node and pos in different buffers unless it started in
   the last one; the next non-empty read is then undefined behaviour. *)
Lemma read_after_failure n nodes s size s' out size' :
  uniform n nodes -> usable nodes s -> 0 < size' ->
  fst (bqs_pos s) <> length nodes - 1 ->
  bqs_read nodes s size = SFail s' out ->
  bqs_read nodes s' size' = SUB.
Proof.
  intros Hu Hus Hsz Hne Hf.
  destruct (Nat.lt_ge_cases (position nodes s + size) (length (flat nodes))) as [Hlt|Hge].
  - destruct (read_ok n nodes s size Hu Hus Hlt) as (x & E & _). congruence.
  - destruct (read_fail n nodes s size Hu Hus Hge) as (x & E & Hp & Hnd).
    rewrite E in Hf. injection Hf as <- <-. unfold bqs_read.
    destruct size' as [|k]; [lia|]. rewrite Hp, Hnd.
    destruct (Nat.eqb_spec (length nodes - 1) (fst (bqs_pos s))); [congruence|reflexivity].
Qed.

Lemma init_head_spec n nodes s :
  uniform n nodes -> bqs_init_head nodes = Some s ->
  usable nodes s /\ position nodes s = 0.
Proof.
  intros [Hn Hu] H. destruct nodes as [|nd r]; [discriminate|]. cbn in H. injection H as <-.
  inversion Hu; subst. split; [|reflexivity]. split; [reflexivity|]. exists nd. cbn. split; [reflexivity|lia].
Qed.

Lemma init_tail_spec n nodes off s :
  uniform n nodes -> off < n -> bqs_init_tail nodes off = Some s ->
  usable nodes s /\ position nodes s + (n - off) = length (flat nodes).
Proof.
  intros [Hn Hu] Hoff H. destruct nodes as [|nd r] eqn:E; [discriminate|]. rewrite <- E in *.
  assert (H' : mk_bqs (length nodes - 1) (length nodes - 1, off) = s)
    by (rewrite E in H |- *; cbn in H |- *; congruence).
  subst s. clear H. unfold usable, position. cbn [bqs_node bqs_pos fst snd].
  destruct (nth_error nodes (length nodes - 1)) as [node|] eqn:Hnode.
  2:{ apply nth_error_None in Hnode. rewrite E in Hnode. cbn in Hnode. lia. }
  assert (Hln : length node = n).
  { rewrite Forall_forall in Hu. apply Hu. eapply nth_error_In; exact Hnode. }
  split.
  - split; [reflexivity|]. exists node. split; [reflexivity|lia].
  - rewrite (flat_split _ _ _ Hnode), app_length, (skipn_nth_cons _ _ _ Hnode).
    rewrite (skipn_all2 nodes) by (rewrite E; cbn; lia). cbn. rewrite app_nil_r. lia.
Qed.
