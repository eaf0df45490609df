From Coq Require Import ZArith List Bool Arith Lia.
From Coq Require Import ZifyBool ZifyNat ZifyN.
From Verif Require Import Bytes PersistModel PersistSpec.
Import ListNotations.
Open Scope Z_scope.

(* ---------------- patching ---------------- *)

Lemma patch_length b data off :
  (off + length data <= length b)%nat -> length (patch b data off) = length b.
Proof. intros H. unfold patch. rewrite !app_length, firstn_length, skipn_length. lia. Qed.

Lemma patch_app_r (a b data : list Z) (off : nat) :
  patch (a ++ b) data (length a + off) = a ++ patch b data off.
Proof.
  unfold patch. rewrite firstn_app, skipn_app.
  rewrite firstn_all2 by lia. rewrite skipn_all2 by lia.
  rewrite <- app_assoc. cbn [app]. f_equal. f_equal.
  - f_equal. lia.
  - f_equal. f_equal. lia.
Qed.

Lemma patch_here (a x b data : list Z) :
  length x = length data -> patch (a ++ x ++ b) data (length a) = a ++ data ++ b.
Proof.
  intros H. rewrite <- (Nat.add_0_r (length a)), patch_app_r. unfold patch.
  cbn [firstn app Nat.add]. f_equal. f_equal. rewrite skipn_app.
  rewrite skipn_all2 by lia. cbn. replace (length data - length x)%nat with O by lia. reflexivity.
Qed.

Lemma marker_loop_spec : forall nodes off data,
  (match nodes with b :: _ => off <= length b | [] => False end)%nat ->
  (off + length data <= length (concat nodes))%nat ->
  exists r, marker_loop nodes off data = Some r /\
    concat r = patch (concat nodes) data off /\
    map (@length Z) r = map (@length Z) nodes.
Proof.
  induction nodes as [|b rest IH]; intros off data Hoff Hlen; [tauto|].
  cbn [marker_loop]. cbn [concat] in Hlen. rewrite app_length in Hlen.
  destruct (Nat.leb_spec (length data) (length b - off)) as [Hle|Hgt].
  - eexists. split; [reflexivity|]. split.
    + cbn [concat]. unfold patch. rewrite firstn_app, skipn_app.
      replace (off - length b)%nat with O by lia.
      replace (off + length data - length b)%nat with O by lia. cbn [firstn skipn].
      rewrite app_nil_r, <- !app_assoc. reflexivity.
    + cbn [map]. rewrite patch_length by lia. reflexivity.
  - destruct (IH O (skipn (length b - off) data)) as (r & E & Hc & Hm).
    + destruct rest as [|b2 rest2]; [cbn in Hlen; lia|]. lia.
    + rewrite skipn_length. lia.
    + rewrite E. eexists. split; [reflexivity|].
      set (left := (length b - off)%nat) in *.
      assert (Hfl : length (firstn left data) = left) by (rewrite firstn_length; lia).
      split.
      * cbn [concat]. rewrite Hc. unfold patch. rewrite Hfl.
        rewrite (skipn_all2 (n := off + left) b) by lia. rewrite app_nil_r.
        cbn [firstn app Nat.add]. rewrite skipn_length.
        rewrite firstn_app, skipn_app.
        rewrite (skipn_all2 (n := off + length data) b) by lia.
        replace (off - length b)%nat with O by lia. cbn [firstn app].
        rewrite app_nil_r, <- app_assoc. f_equal.
        rewrite app_assoc, firstn_skipn. f_equal. f_equal. lia.
      * cbn [map]. rewrite patch_length by lia. rewrite Hm. reflexivity.
Qed.

(* ---------------- writer state ---------------- *)

Definition nodes (w : pw) : list (list Z) := pw_done w ++ [pw_cur w].
Definition flat (w : pw) : list Z := concat (nodes w).
Definition shape (w : pw) : list nat := map (@length Z) (nodes w).

Lemma flat_eq w : flat w = concat (pw_done w) ++ pw_cur w.
Proof. unfold flat, nodes. rewrite concat_app. cbn. rewrite app_nil_r. reflexivity. Qed.

Definition ext (w w' : pw) : Prop :=
  exists n more, shape w' =
    map (@length Z) (pw_done w) ++ (length (pw_cur w) + n)%nat :: more.

Lemma ext_refl w : ext w w.
Proof.
  exists O, []. unfold shape, nodes. rewrite map_app. cbn. rewrite Nat.add_0_r. reflexivity.
Qed.

Lemma ext_trans a b c : ext a b -> ext b c -> ext a c.
Proof.
  intros (n1 & m1 & H1) (n2 & m2 & H2). unfold ext.
  unfold shape, nodes in H1. rewrite map_app in H1. cbn [map] in H1.
  destruct m1 as [|x m1 _] using rev_ind.
  - apply app_inj_tail in H1. destruct H1 as [H1 H1'].
    exists (n1 + n2)%nat, m2. rewrite H2, H1, H1'. f_equal. f_equal. lia.
  - change ((length (pw_cur a) + n1)%nat :: m1 ++ [x])
      with (((length (pw_cur a) + n1)%nat :: m1) ++ [x]) in H1.
    rewrite app_assoc in H1.
    apply app_inj_tail in H1. destruct H1 as [H1 H1'].
    exists n1, (m1 ++ (length (pw_cur b) + n2)%nat :: m2). rewrite H2, H1, <- app_assoc. reflexivity.
Qed.

Definition top_ok (w : pw) : Prop :=
  match pw_blocks w with
  | [] => True
  | b :: _ => 0 <= mk_size (wb_marker b) /\ mk_size (wb_marker b) + 12 <= pw_size w
  end.

Definition wf (w : pw) : Prop := pw_size w = Z.of_nat (length (flat w)).

(* ---------------- plain writes ---------------- *)

Lemma put_spec bs w b :
  flat (pw_put bs w b) = flat w ++ [b] /\ ext w (pw_put bs w b) /\
  pw_blocks (pw_put bs w b) = pw_blocks w /\ pw_size (pw_put bs w b) = pw_size w.
Proof.
  unfold pw_put. destruct (pw_left w) as [|l]; cbn [pw_blocks pw_size].
  - rewrite !flat_eq. cbn [pw_done pw_cur]. rewrite concat_app. cbn [concat].
    rewrite app_nil_r. repeat split.
    exists O, [1%nat]. unfold shape, nodes. cbn [pw_done pw_cur].
    rewrite !map_app. cbn. rewrite Nat.add_0_r, <- app_assoc. reflexivity.
  - rewrite !flat_eq. cbn [pw_done pw_cur]. rewrite app_assoc. repeat split.
    exists 1%nat, []. unfold shape, nodes. cbn [pw_done pw_cur].
    rewrite !map_app. cbn. rewrite app_length. reflexivity.
Qed.

Lemma puts_spec bs : forall data w,
  let w' := fold_left (pw_put bs) data w in
  flat w' = flat w ++ data /\ ext w w' /\
  pw_blocks w' = pw_blocks w /\ pw_size w' = pw_size w.
Proof.
  induction data as [|b data IH]; intros w; cbn [fold_left].
  - rewrite app_nil_r. repeat split. apply ext_refl.
  - destruct (put_spec bs w b) as (P1 & P2 & P3 & P4).
    destruct (IH (pw_put bs w b)) as (Q1 & Q2 & Q3 & Q4).
    cbv zeta. rewrite Q1, P1, <- app_assoc. repeat split; try congruence.
    eapply ext_trans; eassumption.
Qed.

Lemma write_spec bs w data :
  let w' := pw_write bs w data in
  flat w' = flat w ++ data /\ ext w w' /\ pw_blocks w' = pw_blocks w /\
  pw_size w' = pw_size w + Z.of_nat (length data).
Proof.
  unfold pw_write. destruct (puts_spec bs data (pw_add_size w (Z.of_nat (length data))))
    as (P1 & P2 & P3 & P4). cbv zeta. rewrite P1, P3, P4. repeat split. exact P2.
Qed.

Lemma append_spec bs w data :
  let w' := pw_append bs w data in
  flat w' = flat w ++ data /\ ext w w' /\ pw_blocks w' = pw_blocks w /\
  pw_size w' = pw_size w + Z.of_nat (length data).
Proof.
  unfold pw_append. cbn [pw_add_size pw_cur]. rewrite !flat_eq.
  destruct (pw_cur w) as [|x c] eqn:E; cbn [pw_flush pw_add_size pw_done pw_cur pw_left pw_size pw_blocks].
  - rewrite E. rewrite !concat_app. cbn [concat]. rewrite !app_nil_r. repeat split.
    exists (length data), [O]. unfold shape, nodes. cbn [pw_done pw_cur]. rewrite E.
    rewrite !map_app, <- app_assoc. reflexivity.
  - rewrite E. rewrite !concat_app. cbn [concat]. rewrite !app_nil_r. repeat split.
    exists O, [length data; O]. unfold shape, nodes. cbn [pw_done pw_cur]. rewrite E.
    rewrite !map_app, <- !app_assoc, Nat.add_0_r. reflexivity.
Qed.

Lemma emits_spec bs : forall data ops, emits data ops -> forall w,
  exists w', pw_run bs w ops = PwOk w' /\ flat w' = flat w ++ data /\ ext w w' /\
    pw_blocks w' = pw_blocks w /\ pw_size w' = pw_size w + Z.of_nat (length data).
Proof.
  induction 1 as [|d l ops H IH|d l ops H IH]; intros w; cbn [pw_run pw_step].
  - exists w. rewrite app_nil_r. cbn [length]. rewrite Z.add_0_r.
    split; [reflexivity|]. split; [reflexivity|]. split; [apply ext_refl|]. split; reflexivity.
  - destruct (write_spec bs w d) as (P1 & P2 & P3 & P4).
    destruct (IH (pw_write bs w d)) as (w' & E & Q1 & Q2 & Q3 & Q4).
    exists w'. rewrite Q1, P1, <- app_assoc, app_length. repeat split; try congruence.
    + eapply ext_trans; eassumption.
    + lia.
  - destruct (append_spec bs w d) as (P1 & P2 & P3 & P4).
    destruct (IH (pw_append bs w d)) as (w' & E & Q1 & Q2 & Q3 & Q4).
    exists w'. rewrite Q1, P1, <- app_assoc, app_length. repeat split; try congruence.
    + eapply ext_trans; eassumption.
    + lia.
Qed.

Lemma pw_run_app bs : forall o1 w o2,
  pw_run bs w (o1 ++ o2) =
  match pw_run bs w o1 with PwOk w' => pw_run bs w' o2 | e => e end.
Proof.
  induction o1 as [|o o1 IH]; intros w o2; [reflexivity|].
  cbn [app pw_run]. destruct (pw_step bs w o); auto.
Qed.

(* ---------------- blocks ---------------- *)

Lemma set_header_flat w f :
  flat (pw_set_header w f) = flat w /\ pw_done (pw_set_header w f) = pw_done w /\
  pw_cur (pw_set_header w f) = pw_cur w /\ pw_size (pw_set_header w f) = pw_size w /\
  length (pw_blocks (pw_set_header w f)) = length (pw_blocks w).
Proof.
  unfold pw_set_header. destruct (pw_blocks w) as [|b rest] eqn:E; [rewrite E; auto|].
  destruct (wb_hsize b =? 0); cbn; rewrite ?E; auto.
Qed.

Lemma ext_same w w' : pw_done w' = pw_done w -> pw_cur w' = pw_cur w -> ext w w'.
Proof.
  intros H1 H2. exists O, []. unfold shape, nodes. rewrite map_app, H1, H2. cbn.
  rewrite Nat.add_0_r. reflexivity.
Qed.

Lemma ext_from w1 w1' w2 :
  pw_done w1 = pw_done w1' -> pw_cur w1 = pw_cur w1' -> ext w1 w2 -> ext w1' w2.
Proof. unfold ext. intros -> ->. auto. Qed.

(* closing the block whose marker was made at state w0 *)
Lemma marker_write_spec w0 w m data x y :
  ext w0 w ->
  mk_buf m = length (pw_done w0) -> mk_off m = length (pw_cur w0) ->
  flat w = x ++ y -> length x = length (flat w0) ->
  (length data <= length y)%nat ->
  exists w', marker_write w m data = PwOk w' /\
    flat w' = x ++ patch y data 0 /\ shape w' = shape w /\
    pw_blocks w' = pw_blocks w /\ pw_size w' = pw_size w.
Proof.
  intros (n & more & Hsh) Hb Ho Hflat Hlx Hly.
  unfold marker_write. fold (nodes w).
  assert (Hk : map (@length Z) (firstn (length (pw_done w0)) (nodes w)) =
               map (@length Z) (pw_done w0)).
  { rewrite <- firstn_map. unfold shape in Hsh. rewrite Hsh, firstn_app, map_length, Nat.sub_diag.
    cbn. rewrite app_nil_r. rewrite firstn_all2 by (rewrite map_length; lia). reflexivity. }
  assert (Hsk : map (@length Z) (skipn (length (pw_done w0)) (nodes w)) =
               (length (pw_cur w0) + n)%nat :: more).
  { rewrite <- skipn_map. unfold shape in Hsh. rewrite Hsh, skipn_app, map_length, Nat.sub_diag.
    rewrite skipn_all2 by (rewrite map_length; lia). reflexivity. }
  assert (Hcl : forall (a b : list (list Z)), map (@length Z) a = map (@length Z) b ->
                length (concat a) = length (concat b)).
  { induction a as [|u a IHa]; intros [|v b] H; cbn in H; try discriminate; [reflexivity|].
    injection H as H1 H2. cbn. rewrite !app_length, H1. f_equal. apply IHa. exact H2. }
  set (A := firstn (mk_buf m) (nodes w)). set (B := skipn (mk_buf m) (nodes w)).
  assert (HA : length (concat A) = length (concat (pw_done w0)))
    by (apply Hcl; unfold A; rewrite Hb; exact Hk).
  assert (HAB : flat w = concat A ++ concat B).
  { unfold flat. rewrite <- concat_app. unfold A, B. rewrite firstn_skipn. reflexivity. }
  assert (Hf0 : length (flat w0) = (length (concat (pw_done w0)) + length (pw_cur w0))%nat)
    by (rewrite flat_eq, app_length; reflexivity).
  assert (HlB : (length (concat A) + length (concat B) = length x + length y)%nat).
  { rewrite <- !app_length. rewrite <- HAB, Hflat. reflexivity. }
  destruct (marker_loop_spec B (mk_off m) data) as (r & E & Hc & Hm).
  - unfold B. rewrite Hb. destruct (skipn (length (pw_done w0)) (nodes w)) as [|b rest];
      [discriminate|]. cbn in Hsk. injection Hsk as Hsk _. lia.
  - lia.
  - rewrite E.
    set (chain' := A ++ r).
    assert (Hne : chain' <> []).
    { intros H. apply (f_equal (map (@length Z))) in H. unfold chain' in H.
      rewrite map_app, Hm in H. unfold B in H. rewrite Hb, Hsk in H.
      destruct (map (@length Z) A); discriminate. }
    eexists. split; [reflexivity|].
    assert (Hnodes : nodes (mk_pw (removelast chain') (last chain' []) (pw_left w)
              (pw_size w) (pw_blocks w)) = chain').
    { unfold nodes. cbn [pw_done pw_cur]. symmetry. apply app_removelast_last. exact Hne. }
    unfold flat, shape. rewrite Hnodes. cbn [pw_blocks pw_size]. repeat split.
    + unfold chain'. rewrite concat_app, Hc.
      assert (Hp : patch (concat A ++ concat B) data (length (concat A) + mk_off m)
                   = concat A ++ patch (concat B) data (mk_off m)) by apply patch_app_r.
      rewrite <- Hp, <- HAB, Hflat.
      replace (length (concat A) + mk_off m)%nat with (length x + 0)%nat by lia.
      apply patch_app_r.
    + unfold chain'. rewrite map_app, Hm, <- map_app. unfold A, B.
      rewrite firstn_skipn. reflexivity.
Qed.

Lemma block_header_length id size hsize : length (block_header id size hsize) = 12%nat.
Proof. unfold block_header. rewrite !app_length, !le_length. reflexivity. Qed.

Lemma enc_length id hs p : length (enc id hs p) = (12 + length p)%nat.
Proof. unfold enc. rewrite !app_length, !le_length. lia. Qed.

Definition push (w : pw) (b : wblock) : pw :=
  mk_pw (pw_done w) (pw_cur w) (pw_left w) (pw_size w) (b :: pw_blocks w).

Lemma push_flat w b : flat (push w b) = flat w.
Proof. reflexivity. Qed.

Lemma push_ext w w' b : ext w w' -> ext w (push w' b).
Proof. intros H. exact H. Qed.

Lemma open_unfold bs w id :
  (length (pw_blocks w) < 5)%nat ->
  pw_open bs w id = PwOk (push (pw_write bs (pw_set_header w FLAG_CONTAINER) (repeat uninit 12))
     (mk_wblock (mk_marker (length (pw_done (pw_set_header w FLAG_CONTAINER)))
                  (length (pw_cur (pw_set_header w FLAG_CONTAINER)))
                  (pw_size (pw_set_header w FLAG_CONTAINER))) id 0)).
Proof.
  intros Hd. unfold pw_open, MAX_BLOCK_DEPTH.
  destruct (Nat.leb_spec 5 (length (pw_blocks w))); [lia|]. reflexivity.
Qed.

Lemma open_spec bs w id :
  wf w -> (length (pw_blocks w) < 5)%nat ->
  exists w2 m, pw_open bs w id = PwOk w2 /\
    flat w2 = flat w ++ repeat uninit 12 /\ ext w w2 /\ wf w2 /\
    pw_blocks w2 = mk_wblock m id 0 :: pw_blocks (pw_set_header w FLAG_CONTAINER) /\
    mk_buf m = length (pw_done w) /\ mk_off m = length (pw_cur w) /\ mk_size m = pw_size w.
Proof.
  intros Hwf Hd. rewrite open_unfold by exact Hd.
  destruct (set_header_flat w FLAG_CONTAINER) as (S1 & S2 & S3 & S4 & S5).
  destruct (write_spec bs (pw_set_header w FLAG_CONTAINER) (repeat uninit 12)) as (P1 & P2 & P3 & P4).
  set (w1 := pw_set_header w FLAG_CONTAINER) in *.
  assert (Hl : length (repeat uninit 12) = 12%nat) by apply repeat_length.
  generalize dependent (repeat uninit 12). intros res P1 P2 P3 P4 Hl.
  generalize dependent (pw_write bs w1 res). intros w2 P1 P2 P3 P4.
  clearbody w1.
  eexists. eexists. split; [reflexivity|].
  split; [|split; [|split; [|split; [|split; [|split]]]]].
  - rewrite push_flat, P1, S1. reflexivity.
  - apply push_ext. eapply (ext_from w1); [exact S2|exact S3|exact P2].
  - unfold wf. rewrite push_flat, P1, S1, app_length. cbn [push pw_size]. rewrite P4, S4.
    unfold wf in Hwf. lia.
  - cbn [push pw_blocks]. rewrite P3. reflexivity.
  - cbn [mk_buf]. rewrite S2. reflexivity.
  - cbn [mk_off]. rewrite S3. reflexivity.
  - cbn [mk_size]. exact S4.
Qed.

Lemma close_spec w0 w m id hs rest payload :
  wf w -> ext w0 w -> wf w0 ->
  mk_buf m = length (pw_done w0) -> mk_off m = length (pw_cur w0) ->
  mk_size m = pw_size w0 ->
  pw_blocks w = mk_wblock m id hs :: rest ->
  flat w = flat w0 ++ repeat uninit 12 ++ payload ->
  12 + Z.of_nat (length payload) < 2 ^ 32 ->
  exists w', pw_close w = PwOk w' /\
    flat w' = flat w0 ++ enc id (if hs =? 0 then 12 else hs) payload /\
    ext w0 w' /\ wf w' /\ pw_blocks w' = rest.
Proof.
  intros Hwf Hext Hwf0 Hmb Hmo Hms Hbl Hfl Hbound.
  unfold pw_close. rewrite Hbl. cbn [wb_marker wb_id wb_hsize].
  set (hs' := if hs =? 0 then 12 else hs).
  assert (Hsz : u32 (pw_size w - mk_size m) = 12 + Z.of_nat (length payload)).
  { unfold wf in *. rewrite Hms, Hwf, Hwf0, Hfl, !app_length, repeat_length. unfold u32.
    rewrite Z.mod_small; lia. }
  rewrite Hsz.
  destruct (marker_write_spec w0
      (mk_pw (pw_done w) (pw_cur w) (pw_left w) (pw_size w) rest) m
      (block_header id (12 + Z.of_nat (length payload)) hs')
      (flat w0) (repeat uninit 12 ++ payload)) as (w' & E & F1 & F2 & F3 & F4).
  - exact Hext.
  - exact Hmb.
  - exact Hmo.
  - exact Hfl.
  - reflexivity.
  - rewrite block_header_length, app_length, repeat_length. lia.
  - exists w'. split; [exact E|].
    assert (F1' : flat w' = flat w0 ++ enc id hs' payload).
    { rewrite F1. apply (f_equal (app (flat w0))).
      change (patch (repeat uninit 12 ++ payload)
        (block_header id (12 + Z.of_nat (length payload)) hs') 0)
        with (patch ([] ++ repeat uninit 12 ++ payload)
        (block_header id (12 + Z.of_nat (length payload)) hs') (length (@nil Z))).
      rewrite patch_here by (rewrite block_header_length; reflexivity).
      unfold block_header, enc. cbn [app]. rewrite <- !app_assoc. reflexivity. }
    split; [exact F1'|]. split; [|split].
    + destruct Hext as (n & more & Hs). exists n, more. rewrite F2. exact Hs.
    + unfold wf. rewrite F4. cbn [pw_size]. rewrite Hwf, Hfl, F1', !app_length, enc_length, repeat_length. lia.
    + exact F3.
Qed.

Lemma blk_ind2 (P : blk -> Prop) :
  (forall id data, P (Leaf id data)) ->
  (forall id k hdr data, P (Split id k hdr data)) ->
  (forall id hdr kids, Forall P kids -> P (Node id hdr kids)) ->
  forall b, P b.
Proof.
  intros H1 H2 H3. fix IH 1. intros [id data|id k hdr data|id hdr kids].
  - apply H1.
  - apply H2.
  - apply H3. induction kids as [|x l IHl]; constructor; [apply IH|exact IHl].
Qed.

Scheme realise_mut := Induction for realise Sort Prop
  with realise_all_mut := Induction for realise_all Sort Prop.
Combined Scheme realise_both from realise_mut, realise_all_mut.

(* set_header when the top block already has a header size *)
Lemma set_header_set w f b rest :
  pw_blocks w = b :: rest -> wb_hsize b <> 0 -> pw_set_header w f = w.
Proof.
  intros E H. unfold pw_set_header. rewrite E. destruct (Z.eqb_spec (wb_hsize b) 0); congruence.
Qed.

Lemma set_header_unset w f m id rest :
  pw_blocks w = mk_wblock m id 0 :: rest ->
  pw_blocks (pw_set_header w f) =
  mk_wblock m id (u32 (Z.lor (pw_size w - mk_size m) f)) :: rest.
Proof. intros E. unfold pw_set_header. rewrite E. reflexivity. Qed.

Lemma lor_flag a k : 0 <= a < 2 ^ 28 -> 0 <= k < 16 ->
  u32 (Z.lor a (k * 2 ^ 28)) = a + k * 2 ^ 28.
Proof. intros Ha Hk. rewrite lor_add by lia. unfold u32. apply Z.mod_small. lia. Qed.

Lemma flag_container_eq : FLAG_CONTAINER = 1 * 2 ^ 28.
Proof. reflexivity. Qed.

(* after set_header the top block, if any, has a header size *)
Lemma set_header_top w :
  wf w -> top_ok w -> pw_size w < 2 ^ 28 ->
  match pw_blocks (pw_set_header w FLAG_CONTAINER) with
  | [] => True | b :: _ => wb_hsize b <> 0 end.
Proof.
  intros Hwf Ht Hs. unfold pw_set_header, top_ok in *.
  destruct (pw_blocks w) as [|b rest] eqn:E; [rewrite E; exact I|].
  destruct (Z.eqb_spec (wb_hsize b) 0) as [Hz|Hz].
  - cbn. rewrite flag_container_eq, lor_flag; lia.
  - rewrite E. exact Hz.
Qed.

Definition top_set (w : pw) : Prop :=
  match pw_blocks w with [] => True | b :: _ => wb_hsize b <> 0 end.

Lemma set_header_noop w : top_set w -> pw_set_header w FLAG_CONTAINER = w.
Proof.
  unfold top_set, pw_set_header. destruct (pw_blocks w) as [|b r] eqn:E; [reflexivity|].
  intros H. destruct (Z.eqb_spec (wb_hsize b) 0); [congruence|reflexivity].
Qed.

Lemma top_ok_blocks w w' :
  pw_blocks w' = pw_blocks (pw_set_header w FLAG_CONTAINER) ->
  pw_size w <= pw_size w' -> top_ok w -> top_ok w'.
Proof.
  unfold top_ok, pw_set_header. intros -> Hle.
  destruct (pw_blocks w) as [|b r] eqn:E; [rewrite E; auto|].
  destruct (wb_hsize b =? 0); cbn; rewrite ?E; cbn; lia.
Qed.

Lemma ext_len w w' : ext w w' -> (length (flat w) <= length (flat w'))%nat.
Proof.
  intros (n & more & H). unfold shape in H.
  assert (G : forall l : list (list Z), length (concat l) = fold_right Nat.add O (map (@length Z) l)).
  { induction l as [|x l IH]; [reflexivity|]. cbn. rewrite app_length, IH. reflexivity. }
  unfold flat. rewrite !G, H. unfold nodes. rewrite map_app, !fold_right_app. cbn.
  generalize (map (@length Z) (pw_done w)) as l. induction l as [|x l IH]; cbn; lia.
Qed.

Lemma kids_ok_all kids : fold_right (fun k P => ok k /\ P) True kids <-> ok_all kids.
Proof. reflexivity. Qed.

Theorem realise_spec bs :
  (forall b ops, realise b ops -> forall w,
     wf w -> top_ok w -> (length (pw_blocks w) + depth b <= 5)%nat -> ok b ->
     Z.of_nat (length (flat w) + length (encode b)) < 2 ^ 28 ->
     exists w', pw_run bs w ops = PwOk w' /\ flat w' = flat w ++ encode b /\
       ext w w' /\ wf w' /\ pw_blocks w' = pw_blocks (pw_set_header w FLAG_CONTAINER)) /\
  (forall l ops, realise_all l ops -> forall w,
     wf w -> top_ok w -> (length (pw_blocks w) + depth_all l <= 5)%nat -> ok_all l ->
     Z.of_nat (length (flat w) + length (encode_all l)) < 2 ^ 28 ->
     exists w', pw_run bs w ops = PwOk w' /\ flat w' = flat w ++ encode_all l /\
       ext w w' /\ wf w' /\
       pw_blocks w' = (match l with [] => pw_blocks w
                       | _ => pw_blocks (pw_set_header w FLAG_CONTAINER) end)).
Proof.
  apply realise_both.
  - (* leaf *)
    intros id data ops Hem w Hwf Htop Hd Hok Hsz. cbn [depth] in Hd.
    cbn [encode] in *. rewrite enc_length in Hsz.
    destruct (open_spec bs w id Hwf ltac:(lia)) as (w2 & m & Eo & F2 & X2 & W2 & B2 & M1 & M2 & M3).
    destruct (emits_spec bs data ops Hem w2) as (w3 & E3 & F3 & X3 & B3 & S3).
    assert (W3 : wf w3).
    { unfold wf in *. rewrite S3, W2, F3, app_length. lia. }
    destruct (close_spec w w3 m id 0 (pw_blocks (pw_set_header w FLAG_CONTAINER)) data)
      as (w4 & E4 & F4 & X4 & W4 & B4); try assumption.
    + eapply ext_trans; eassumption.
    + rewrite B3, B2. reflexivity.
    + rewrite F3, F2, <- app_assoc. reflexivity.
    + lia.
    + exists w4. cbn [pw_run pw_step]. rewrite Eo. rewrite pw_run_app, E3. cbn [pw_run pw_step].
      rewrite E4. cbn in F4. auto.
  - (* direct *)
    intros id data w Hwf Htop Hd Hok Hsz. cbn [pw_run pw_step].
    cbn [encode] in *. rewrite enc_length in Hsz.
    unfold pw_write_block.
    destruct (set_header_flat w FLAG_CONTAINER) as (S1 & S2 & S3 & S4 & S5).
    set (hd := block_header id (u32 (12 + Z.of_nat (length data))) 12).
    destruct (write_spec bs (pw_set_header w FLAG_CONTAINER) hd) as (P1 & P2 & P3 & P4).
    destruct (write_spec bs (pw_write bs (pw_set_header w FLAG_CONTAINER) hd) data) as (Q1 & Q2 & Q3 & Q4).
    eexists. split; [reflexivity|]. split; [|split; [|split]].
    + rewrite Q1, P1, S1, <- app_assoc. f_equal. unfold hd, block_header, enc, u32.
      rewrite Z.mod_small by lia. rewrite <- !app_assoc. reflexivity.
    + eapply ext_trans; [|eapply ext_trans; [exact P2|exact Q2]]. apply ext_same; assumption.
    + unfold wf in *. rewrite Q4, P4, S4, Q1, P1, S1, !app_length, Hwf. lia.
    + rewrite Q3, P3. reflexivity.
  - (* split *)
    intros id k hdr data ops1 ops2 He1 He2 w Hwf Htop Hd Hok Hsz. cbn [depth] in Hd.
    cbn [encode ok] in *. destruct Hok as (Hid & Hk & _ & _ & _).
    rewrite enc_length, app_length in Hsz.
    destruct (open_spec bs w id Hwf ltac:(lia)) as (w2 & m & Eo & F2 & X2 & W2 & B2 & M1 & M2 & M3).
    destruct (emits_spec bs hdr ops1 He1 w2) as (w3 & E3 & F3 & X3 & B3 & S3).
    destruct (set_header_flat w3 (k * 2 ^ 28)) as (T1 & T2 & T3 & T4 & T5).
    rewrite B2 in B3. pose proof (set_header_unset w3 (k * 2 ^ 28) _ _ _ B3) as B3'.
    set (w3' := pw_set_header w3 (k * 2 ^ 28)) in *.
    assert (Hh : u32 (Z.lor (pw_size w3 - mk_size m) (k * 2 ^ 28)) =
                 12 + Z.of_nat (length hdr) + k * 2 ^ 28).
    { rewrite M3, S3. unfold wf in *. rewrite W2, Hwf, F2, app_length, repeat_length.
      rewrite lor_flag by lia. lia. }
    rewrite Hh in B3'.
    destruct (emits_spec bs data ops2 He2 w3') as (w4 & E4 & F4 & X4 & B4 & S4).
    assert (W4 : wf w4).
    { unfold wf in *. rewrite S4, T4, S3, W2, F4, T1, F3, !app_length. lia. }
    destruct (close_spec w w4 m id (12 + Z.of_nat (length hdr) + k * 2 ^ 28)
                (pw_blocks (pw_set_header w FLAG_CONTAINER)) (hdr ++ data))
      as (w5 & E5 & F5 & X5 & W5 & B5); try assumption.
    + eapply ext_trans; [exact X2|]. eapply ext_trans; [exact X3|].
      eapply ext_trans; [|exact X4]. apply ext_same; assumption.
    + rewrite B4, B3'. reflexivity.
    + rewrite F4, T1, F3, F2, <- !app_assoc. reflexivity.
    + rewrite app_length. lia.
    + exists w5. cbn [pw_run pw_step]. rewrite Eo, pw_run_app, E3. cbn [pw_run pw_step].
      fold w3'. rewrite pw_run_app, E4. cbn [pw_run pw_step]. rewrite E5.
      destruct (Z.eqb_spec (12 + Z.of_nat (length hdr) + k * 2 ^ 28) 0); [lia|].
      auto.
  - (* node *)
    intros id hdr kids ops1 ops2 He1 Hr IH w Hwf Htop Hd Hok Hsz. cbn [depth] in Hd.
    cbn [encode ok] in *. destruct Hok as (Hid & _ & Hkids).
    rewrite enc_length, app_length in Hsz.
    destruct (open_spec bs w id Hwf ltac:(lia)) as (w2 & m & Eo & F2 & X2 & W2 & B2 & M1 & M2 & M3).
    destruct (emits_spec bs hdr ops1 He1 w2) as (w3 & E3 & F3 & X3 & B3 & S3).
    destruct (set_header_flat w3 FLAG_CONTAINER) as (T1 & T2 & T3 & T4 & T5).
    rewrite B2 in B3. pose proof (set_header_unset w3 FLAG_CONTAINER _ _ _ B3) as B3'.
    set (w3' := pw_set_header w3 FLAG_CONTAINER) in *.
    assert (Hh : u32 (Z.lor (pw_size w3 - mk_size m) FLAG_CONTAINER) =
                 12 + Z.of_nat (length hdr) + 1 * 2 ^ 28).
    { rewrite M3, S3. unfold wf in *. rewrite W2, Hwf, F2, app_length, repeat_length.
      rewrite flag_container_eq, lor_flag by lia. lia. }
    rewrite Hh in B3'.
    assert (W3 : wf w3').
    { unfold wf in *. rewrite T4, S3, W2, T1, F3, !app_length. lia. }
    destruct (set_header_flat w FLAG_CONTAINER) as (_ & _ & _ & _ & U5).
    destruct (IH w3') as (w4 & E4 & F4 & X4 & W4 & B4).
    + exact W3.
    + unfold top_ok. rewrite B3'. cbn [wb_marker]. rewrite T4, S3, M3.
      unfold wf in *. rewrite W2, F2, Hwf, app_length, repeat_length. lia.
    + rewrite B3'. cbn [length]. rewrite U5. unfold depth_all. lia.
    + exact Hkids.
    + rewrite T1, F3, F2, !app_length, repeat_length. unfold encode_all. lia.
    + assert (B4' : pw_blocks w4 = mk_wblock m id (12 + Z.of_nat (length hdr) + 1 * 2 ^ 28)
                       :: pw_blocks (pw_set_header w FLAG_CONTAINER)).
      { rewrite B4, <- B3'. destruct kids; [reflexivity|].
        rewrite set_header_noop; [reflexivity|]. unfold top_set. rewrite B3'. cbn [wb_hsize]. lia. }
      destruct (close_spec w w4 m id (12 + Z.of_nat (length hdr) + 1 * 2 ^ 28)
                (pw_blocks (pw_set_header w FLAG_CONTAINER)) (hdr ++ concat (map encode kids)))
        as (w5 & E5 & F5 & X5 & W5 & B5); try assumption.
      * eapply ext_trans; [exact X2|]. eapply ext_trans; [exact X3|].
        eapply ext_trans; [|exact X4]. apply ext_same; assumption.
      * rewrite F4, T1, F3, F2, <- !app_assoc. reflexivity.
      * rewrite app_length. lia.
      * exists w5. cbn [pw_run pw_step]. rewrite Eo, pw_run_app, E3. cbn [pw_run pw_step].
        fold w3'. rewrite pw_run_app, E4. cbn [pw_run pw_step]. rewrite E5.
        destruct (Z.eqb_spec (12 + Z.of_nat (length hdr) + 1 * 2 ^ 28) 0); [lia|].
        auto.
  - (* node, header set by the first inner block *)
    intros id hdr kid kids ops1 ops2 He1 Hr IH w Hwf Htop Hd Hok Hsz. cbn [depth] in Hd.
    cbn [encode ok] in *. destruct Hok as (Hid & _ & Hkids).
    rewrite enc_length, app_length in Hsz.
    destruct (open_spec bs w id Hwf ltac:(lia)) as (w2 & m & Eo & F2 & X2 & W2 & B2 & M1 & M2 & M3).
    destruct (emits_spec bs hdr ops1 He1 w2) as (w3 & E3 & F3 & X3 & B3 & S3).
    rewrite B2 in B3. pose proof (set_header_unset w3 FLAG_CONTAINER _ _ _ B3) as B3'.
    assert (Hh : u32 (Z.lor (pw_size w3 - mk_size m) FLAG_CONTAINER) =
                 12 + Z.of_nat (length hdr) + 1 * 2 ^ 28).
    { rewrite M3, S3. unfold wf in *. rewrite W2, Hwf, F2, app_length, repeat_length.
      rewrite flag_container_eq, lor_flag by lia. lia. }
    rewrite Hh in B3'.
    assert (W3 : wf w3).
    { unfold wf in *. rewrite S3, W2, F3, !app_length. lia. }
    destruct (set_header_flat w FLAG_CONTAINER) as (_ & _ & _ & _ & U5).
    destruct (IH w3) as (w4 & E4 & F4 & X4 & W4 & B4).
    + exact W3.
    + unfold top_ok. rewrite B3. cbn [wb_marker]. rewrite S3, M3.
      unfold wf in *. rewrite W2, F2, Hwf, app_length, repeat_length. lia.
    + rewrite B3. cbn [length]. rewrite U5. unfold depth_all. lia.
    + exact Hkids.
    + rewrite F3, F2, !app_length, repeat_length. unfold encode_all. lia.
    + rewrite B3' in B4.
      destruct (close_spec w w4 m id (12 + Z.of_nat (length hdr) + 1 * 2 ^ 28)
                (pw_blocks (pw_set_header w FLAG_CONTAINER)) (hdr ++ concat (map encode (kid :: kids))))
        as (w5 & E5 & F5 & X5 & W5 & B5); try assumption.
      * eapply ext_trans; [exact X2|]. eapply ext_trans; [exact X3|]. exact X4.
      * rewrite F4, F3, F2, <- !app_assoc. reflexivity.
      * rewrite app_length. lia.
      * exists w5. cbn [pw_run pw_step]. rewrite Eo, pw_run_app, E3.
        rewrite pw_run_app, E4. cbn [pw_run pw_step]. rewrite E5.
        destruct (Z.eqb_spec (12 + Z.of_nat (length hdr) + 1 * 2 ^ 28) 0); [lia|].
        auto.
  - (* nil *)
    intros w Hwf Htop Hd Hok Hsz. exists w. cbn. rewrite app_nil_r.
    repeat split; auto. apply ext_refl.
  - (* cons *)
    intros b l ops1 ops2 Hb IHb Hl IHl w Hwf Htop Hd Hok Hsz.
    cbn [depth_all fold_right ok_all] in *. destruct Hok as [Hok1 Hok2].
    fold (depth_all l) in Hd. fold (ok_all l) in Hok2.
    assert (Hcat : encode_all (b :: l) = encode b ++ encode_all l) by reflexivity.
    rewrite Hcat, app_length in Hsz.
    destruct (IHb w Hwf Htop) as (w1 & E1 & F1 & X1 & W1 & B1); [lia|exact Hok1|lia|].
    assert (Hlt : pw_size w <= pw_size w1).
    { unfold wf in *. rewrite Hwf, W1, F1, app_length. lia. }
    assert (Hset : top_set w1).
    { unfold top_set. rewrite B1. apply set_header_top; try assumption.
      unfold wf in Hwf. rewrite Hwf. lia. }
    destruct (set_header_flat w FLAG_CONTAINER) as (_ & _ & _ & _ & U5).
    destruct (IHl w1 W1) as (w2 & E2 & F2 & X2 & W2 & B2).
    + eapply top_ok_blocks; [exact B1|exact Hlt|exact Htop].
    + rewrite B1, U5. lia.
    + exact Hok2.
    + rewrite F1, app_length. lia.
    + exists w2. rewrite pw_run_app, E1, E2. split; [reflexivity|].
      split; [rewrite F2, F1, Hcat, <- app_assoc; reflexivity|].
      split; [eapply ext_trans; eassumption|]. split; [exact W2|].
      rewrite B2, <- B1. destruct l; [reflexivity|]. rewrite set_header_noop by exact Hset. reflexivity.
Qed.

(* ---------------- whole files ---------------- *)

Lemma file_header_length size type created : length (file_header size type created) = 32%nat.
Proof. unfold file_header. rewrite !app_length, !le_length. reflexivity. Qed.

Lemma write_file bs type created l ops :
  (32 <= bs)%nat -> 0 < type < 2 ^ 32 -> ok_all l -> (depth_all l <= 5)%nat ->
  Z.of_nat (32 + length (encode_all l)) < 2 ^ 28 ->
  realise_all l ops ->
  exists w chain size, pw_run bs (pw_init bs type created) ops = PwOk w /\
    pw_finish w true = Some (chain, size) /\
    chain_bytes chain = file_header size type created ++ encode_all l /\
    size = Z.of_nat (length (chain_bytes chain)).
Proof.
  intros Hbs Ht Hok Hd Hsz Hr. unfold pw_init.
  destruct (Z.eqb_spec type 0); [lia|].
  set (h1 := firstn 4 (file_header 0 type created)).
  set (h2 := skipn 8 (file_header 0 type created)).
  set (w0 := mk_pw [] (h1 ++ repeat uninit 4 ++ h2) (bs - 32) 32 []).
  assert (Hh1 : h1 = le 4 FILE_MAGIC) by reflexivity.
  assert (Hh2 : h2 = le 4 (Z.lor 32 FLAG_CONTAINER) ++ le 4 0
     ++ le 4 FILE_MAX_VERSION ++ le 4 type ++ le 8 created) by reflexivity.
  assert (Hf0 : flat w0 = h1 ++ repeat uninit 4 ++ h2) by reflexivity.
  assert (Hl0 : length (flat w0) = 32%nat).
  { rewrite Hf0, Hh1, Hh2, !app_length, !le_length, repeat_length. reflexivity. }
  assert (Hwf0 : wf w0) by (unfold wf; rewrite Hl0; reflexivity).
  destruct (realise_spec bs) as [_ H].
  destruct (H l ops Hr w0 Hwf0) as (w & E & F & X & W & B); try assumption.
  - exact I.
  - exists w. rewrite E.
    assert (Bn : pw_blocks w = []) by (rewrite B; destruct l; reflexivity).
    unfold pw_finish. rewrite Bn.
    fold (nodes w).
    destruct (nodes w) as [|b0 rest] eqn:En; [destruct (pw_done w) eqn:Ed; unfold nodes in En; rewrite Ed in En; discriminate|].
    eexists. eexists. split; [reflexivity|]. split; [reflexivity|].
    assert (Hb0 : (8 <= length b0)%nat).
    { destruct X as (n1 & more & Hs). unfold shape in Hs. rewrite En in Hs. cbn in Hs.
      injection Hs as Hs _. lia. }
    assert (Hcat : chain_bytes (patch b0 (le 4 (pw_size w)) 4 :: rest) =
                   patch (flat w) (le 4 (pw_size w)) 4).
    { unfold chain_bytes, flat. rewrite En. cbn [concat]. unfold patch.
      rewrite le_length, firstn_app, skipn_app.
      replace (4 - length b0)%nat with O by lia.
      replace (4 + 4 - length b0)%nat with O by lia. cbn [firstn skipn].
      rewrite app_nil_r, <- !app_assoc. reflexivity. }
    assert (Hfin : patch (flat w) (le 4 (pw_size w)) 4 =
       file_header (pw_size w) type created ++ encode_all l).
    { rewrite F, Hf0. rewrite <- !app_assoc.
      replace 4%nat with (length h1) at 2 by (rewrite Hh1; apply le_length).
      rewrite patch_here by (rewrite le_length; reflexivity).
      rewrite Hh1, Hh2. unfold file_header. rewrite <- !app_assoc. reflexivity. }
    rewrite Hcat, Hfin. split; [reflexivity|].
    unfold wf in W. rewrite W at 1. rewrite F, !app_length, Hl0, file_header_length. reflexivity.
Qed.

(* ---------------- reader ---------------- *)

Lemma window_length buf rs : rs_ok buf rs -> length (window buf rs) = (rs_end rs - rs_pos rs)%nat.
Proof. intros [H1 H2]. unfold window. rewrite firstn_length, skipn_length. lia. Qed.

Lemma skipn_skipn' {A} (l : list A) a b : skipn a (skipn b l) = skipn (b + a) l.
Proof.
  revert l; induction b as [|b IH]; intros l; [reflexivity|].
  destruct l as [|x l]; [destruct a; reflexivity|]. cbn. apply IH.
Qed.

Lemma mem_get_window buf rs i n :
  rs_ok buf rs -> (i + n <= rs_end rs - rs_pos rs)%nat ->
  mem_get buf (rs_pos rs + i) n = ROk (firstn n (skipn i (window buf rs))).
Proof.
  intros [H1 H2] H. unfold mem_get.
  destruct (Nat.leb_spec (rs_pos rs + i + n) (length buf)); [|lia].
  f_equal. unfold window. rewrite skipn_firstn_comm, firstn_firstn, skipn_skipn'.
  f_equal. lia.
Qed.

Lemma get_ptr_window buf rs n :
  rs_ok buf rs -> (n <= rs_end rs - rs_pos rs)%nat ->
  rs_get_ptr rs n = ROk (rs_pos rs, mk_rs (rs_pos rs + n) (rs_end rs)) /\
  rs_ok buf (mk_rs (rs_pos rs + n) (rs_end rs)) /\
  window buf (mk_rs (rs_pos rs + n) (rs_end rs)) = skipn n (window buf rs).
Proof.
  intros [H1 H2] H. unfold rs_get_ptr.
  destruct (Nat.ltb_spec (rs_end rs) (rs_pos rs)); [lia|].
  destruct (Nat.ltb_spec (rs_end rs - rs_pos rs) n); [lia|].
  split; [reflexivity|]. split; [split; cbn; lia|].
  unfold window. cbn [rs_pos rs_end]. rewrite skipn_firstn_comm, skipn_skipn'. f_equal. lia.
Qed.

Lemma firstn_exact {A} (a b : list A) : firstn (length a) (a ++ b) = a.
Proof. rewrite firstn_app, firstn_all, Nat.sub_diag. cbn. apply app_nil_r. Qed.

Lemma skipn_exact {A} (a b : list A) : skipn (length a) (a ++ b) = b.
Proof. rewrite skipn_app, skipn_all, Nat.sub_diag. reflexivity. Qed.

Lemma read_block_enc buf rs id hs payload rest :
  rs_ok buf rs -> window buf rs = enc id hs payload ++ rest ->
  12 + Z.of_nat (length payload) < 2 ^ 32 ->
  exists brs rs', read_block buf rs = ROk (rs_pos rs, brs, rs') /\
    rs_ok buf brs /\ window buf brs = payload /\ rs_pos brs = (rs_pos rs + 12)%nat /\
    rs_ok buf rs' /\ window buf rs' = rest /\
    (rs_end rs' = rs_end rs /\ rs_pos rs' = rs_pos rs + 12 + length payload)%nat /\
    mem_get buf (rs_pos rs) 4 = ROk (le 4 id) /\
    mem_get buf (rs_pos rs + 8) 4 = ROk (le 4 hs).
Proof.
  intros Hok Hw Hb.
  pose proof (window_length buf rs Hok) as Hl. rewrite Hw, app_length, enc_length in Hl.
  unfold read_block.
  destruct (get_ptr_window buf rs 12 Hok ltac:(lia)) as (G1 & G2 & G3). rewrite G1.
  rewrite (mem_get_window buf rs 4 4 Hok ltac:(lia)).
  assert (Hsb : firstn 4 (skipn 4 (window buf rs)) = le 4 (12 + Z.of_nat (length payload))).
  { rewrite Hw. unfold enc. rewrite <- !app_assoc.
    replace 4%nat with (length (le 4 id)) at 2 by apply le_length. rewrite skipn_exact.
    replace 4%nat with (length (le 4 (12 + Z.of_nat (length payload)))) at 1 by apply le_length.
    apply firstn_exact. }
  rewrite Hsb, unle_le_small by (change (256 ^ Z.of_nat 4) with (2 ^ 32); lia).
  destruct (Z.ltb_spec (12 + Z.of_nat (length payload)) 12); [lia|].
  unfold rs_get_stream.
  replace (Z.to_nat (12 + Z.of_nat (length payload) - 12)) with (length payload) by lia.
  set (rs1 := mk_rs (rs_pos rs + 12) (rs_end rs)) in *.
  assert (Hw1 : window buf rs1 = payload ++ rest).
  { rewrite G3, Hw. unfold enc. rewrite !app_assoc.
    rewrite <- (app_assoc (_ ++ _) payload rest).
    replace 12%nat with (length ((le 4 id ++ le 4 (12 + Z.of_nat (length payload))) ++ le 4 hs))
      by (rewrite !app_length, !le_length; reflexivity).
    apply skipn_exact. }
  destruct (get_ptr_window buf rs1 (length payload) G2) as (K1 & K2 & K3).
  { unfold rs1; cbn; lia. }
  rewrite K1. cbn [rs_pos rs_end].
  eexists. eexists. split; [reflexivity|].
  assert (Hbrs : rs_ok buf (mk_rs (rs_pos rs1) (rs_pos rs1 + length payload))).
  { destruct G2 as [g1 g2], K2 as [k1 k2]. cbn in *. split; cbn; lia. }
  split; [exact Hbrs|]. split; [|split; [reflexivity|split; [exact K2|split; [|split; [|split]]]]].
  - unfold window. cbn [rs_pos rs_end].
    replace (rs_pos rs1 + length payload - rs_pos rs1)%nat with (length payload) by lia.
    assert (Hx : firstn (length payload) (window buf rs1) = payload)
      by (rewrite Hw1; apply firstn_exact).
    unfold window in Hx. rewrite firstn_firstn in Hx.
    replace (Nat.min (length payload) (rs_end rs1 - rs_pos rs1)) with (length payload) in Hx
      by (unfold rs1; cbn; lia). exact Hx.
  - rewrite K3, Hw1. apply skipn_exact.
  - split; [reflexivity|]. cbn. lia.
  - replace (rs_pos rs) with (rs_pos rs + 0)%nat by lia.
    rewrite (mem_get_window buf rs 0 4 Hok ltac:(lia)). f_equal. cbn [skipn].
    rewrite Hw. unfold enc. rewrite <- !app_assoc.
    replace 4%nat with (length (le 4 id)) at 1 by apply le_length. apply firstn_exact.
  - rewrite (mem_get_window buf rs 8 4 Hok ltac:(lia)). f_equal.
    rewrite Hw. unfold enc. rewrite app_assoc, <- !app_assoc, app_assoc.
    replace 8%nat with (length (le 4 id ++ le 4 (12 + Z.of_nat (length payload))))
      by (rewrite app_length, !le_length; reflexivity).
    rewrite skipn_exact.
    replace 4%nat with (length (le 4 hs)) at 1 by apply le_length. apply firstn_exact.
Qed.

(* skip_block_header on a block stream that has just been opened *)
Lemma skip_header_enc buf brs hdr hs k hbytes rest :
  rs_ok buf brs -> window buf brs = hbytes ++ rest ->
  mem_get buf (hdr + 8) 4 = ROk (le 4 hs) ->
  rs_pos brs = (hdr + 12)%nat ->
  hs = 12 + Z.of_nat (length hbytes) + k * 2 ^ 28 -> 0 <= k < 16 ->
  12 + Z.of_nat (length hbytes) < 2 ^ 28 ->
  exists rs', skip_block_header buf brs hdr = ROk rs' /\
    rs_ok buf rs' /\ window buf rs' = rest /\
    rs_pos rs' = (rs_pos brs + length hbytes)%nat /\ rs_end rs' = rs_end brs.
Proof.
  intros Hok Hw Hm Hp Hhs Hk Hb. unfold skip_block_header. rewrite Hm.
  assert (Hu : unle (le 4 hs) = hs).
  { apply unle_le_small. change (256 ^ Z.of_nat 4) with (2 ^ 32). lia. }
  assert (Hland : Z.land (unle (le 4 hs)) SIZE_MASK = 12 + Z.of_nat (length hbytes)).
  { rewrite Hu. change SIZE_MASK with (2 ^ 28 - 1). rewrite land_mask by lia.
    rewrite Hhs. rewrite Z.mod_add by lia. apply Z.mod_small. lia. }
  rewrite Hland, Hp.
  assert (Hr : u32 (Z.of_nat (hdr + 12) - Z.of_nat hdr) = 12).
  { unfold u32. replace (Z.of_nat (hdr + 12) - Z.of_nat hdr) with 12 by lia. reflexivity. }
  rewrite Hr. pose proof (window_length buf brs Hok) as Hl. rewrite Hw, app_length in Hl.
  destruct (Z.ltb_spec (12 + Z.of_nat (length hbytes)) 12); [lia|].
  destruct (Z.ltb_spec 12 (12 + Z.of_nat (length hbytes))) as [Hlt|Hge].
  - replace (Z.to_nat (12 + Z.of_nat (length hbytes) - 12)) with (length hbytes) by lia.
    destruct (get_ptr_window buf brs (length hbytes) Hok ltac:(lia)) as (G1 & G2 & G3).
    rewrite G1. eexists. split; [reflexivity|]. split; [exact G2|].
    split; [rewrite G3, Hw; apply skipn_exact|]. cbn [rs_pos rs_end]. split; lia.
  - assert (hbytes = []) as -> by (destruct hbytes; [reflexivity|cbn [length] in Hge; lia]).
    exists brs. split; [reflexivity|]. split; [exact Hok|]. split; [exact Hw|]. cbn [length]. lia.
Qed.

Lemma read_blocks_enc {S : Type} buf known (h : S -> nat -> rstream -> rres S)
    (hs : S -> rawblk -> rres S) : forall l fuel rs s,
  rs_ok buf rs -> window buf rs = concat (map rb_enc l) ->
  Forall rb_ok l -> (length l <= fuel)%nat ->
  (forall s hdr brs b, In b l -> known (le 4 (rb_id b)) = true ->
     rs_ok buf brs -> window buf brs = rb_payload b ->
     rs_pos brs = (hdr + 12)%nat ->
     mem_get buf hdr 4 = ROk (le 4 (rb_id b)) ->
     mem_get buf (hdr + 8) 4 = ROk (le 4 (rb_hsize b)) ->
     h s hdr brs = hs s b) ->
  read_blocks buf known h fuel rs s =
  fold_res hs (filter (fun b => known (le 4 (rb_id b))) l) s.
Proof.
  induction l as [|b l IH]; intros fuel rs s Hok Hw Hf Hfuel Hh.
  - cbn in Hw. pose proof (window_length _ _ Hok) as Hl. rewrite Hw in Hl. cbn in Hl.
    cbn [filter fold_res]. destruct fuel; cbn [read_blocks];
      destruct (Nat.leb_spec (rs_end rs) (rs_pos rs)); try lia; reflexivity.
  - cbn [map concat] in Hw. inversion Hf as [|? ? Hb Hf']; subst.
    destruct fuel as [|fuel]; [cbn in Hfuel; lia|]. cbn [read_blocks].
    pose proof (window_length _ _ Hok) as Hl. rewrite Hw, app_length in Hl.
    unfold rb_enc in Hl at 1. rewrite enc_length in Hl.
    destruct (Nat.leb_spec (rs_end rs) (rs_pos rs)); [lia|].
    unfold rb_enc in Hw at 1.
    destruct (read_block_enc _ _ _ _ _ _ Hok Hw Hb)
      as (brs & rs' & E & B1 & B2 & B3 & R1 & R2 & R3 & M1 & M2).
    rewrite E, M1. cbn [filter].
    assert (IH' : forall s', read_blocks buf known h fuel rs' s' =
              fold_res hs (filter (fun b => known (le 4 (rb_id b))) l) s').
    { intros s'. apply IH; try assumption.
      - cbn in Hfuel. lia.
      - intros. apply Hh; try assumption. right; assumption. }
    destruct (known (le 4 (rb_id b))) eqn:Hk.
    + cbn [fold_res]. rewrite (Hh s (rs_pos rs) brs b); try assumption; [|left; reflexivity].
      destruct (hs s b) as [s'| | | |]; auto.
    + apply IH'.
Qed.

(* tree reader *)
Definition raw_of (b : blk) : rawblk :=
  match b with
  | Leaf id data => mk_rawblk id 12 data
  | Split id k hdr data => mk_rawblk id (12 + Z.of_nat (length hdr) + k * 2 ^ 28) (hdr ++ data)
  | Node id hdr kids => mk_rawblk id (12 + Z.of_nat (length hdr) + 1 * 2 ^ 28) (hdr ++ encode_all kids)
  end.

Lemma raw_of_enc b : rb_enc (raw_of b) = encode b.
Proof. destruct b; reflexivity. Qed.

Lemma length_encode_kids kids b : In b kids -> (length (encode b) <= length (encode_all kids))%nat.
Proof.
  unfold encode_all. induction kids as [|k kids IH]; cbn; [tauto|].
  rewrite app_length. intros [->|H]; [lia|]. specialize (IH H). lia.
Qed.

Lemma encode_length_ge b : (12 <= length (encode b))%nat.
Proof. destruct b; cbn [encode]; rewrite enc_length; lia. Qed.

Lemma depth_all_in kids b : In b kids -> (depth b <= depth_all kids)%nat.
Proof.
  unfold depth_all. induction kids as [|k kids IH]; cbn; [tauto|].
  intros [->|H]; [lia|]. specialize (IH H). lia.
Qed.

Lemma ok_all_in kids b : ok_all kids -> In b kids -> ok b.
Proof.
  unfold ok_all. induction kids as [|k kids IH]; cbn; [tauto|].
  intros [H1 H2] [->|H]; auto.
Qed.

Lemma count_le_length l : (length l <= length (encode_all l))%nat.
Proof.
  unfold encode_all. induction l as [|b l IH]; cbn; [lia|]. rewrite app_length.
  pose proof (encode_length_ge b). lia.
Qed.

Lemma testbit28 a k : 0 <= a < 2 ^ 28 -> 0 <= k ->
  Z.testbit (a + k * 2 ^ 28) 28 = Z.testbit k 0.
Proof.
  intros Ha Hk. rewrite <- lor_add by lia. rewrite Z.lor_spec, Z.mul_pow2_bits by lia.
  replace a with (a mod 2 ^ 28) by (apply Z.mod_small; lia).
  rewrite Z.mod_pow2_bits_high by lia. reflexivity.
Qed.

Lemma read_tree_encode buf fuel : forall d l rs,
  rs_ok buf rs -> window buf rs = encode_all l ->
  ok_all l -> (depth_all l <= d)%nat -> (length buf <= fuel)%nat ->
  Z.of_nat (length (encode_all l)) < 2 ^ 28 ->
  read_tree d buf fuel rs = ROk (map tree_of l).
Proof.
  induction d as [|d IH]; intros l rs Hok Hw Hokl Hd Hfuel Hsz.
  - destruct l as [|b l].
    + cbn in Hw. pose proof (window_length _ _ Hok) as Hl. rewrite Hw in Hl. cbn in Hl.
      cbn. destruct (Nat.leb_spec (rs_end rs) (rs_pos rs)); [reflexivity|lia].
    + exfalso. unfold depth_all in Hd. cbn [fold_right] in Hd. destruct b; cbn [depth] in Hd; lia.
  - cbn [read_tree].
    match goal with |- read_blocks _ _ ?h _ _ _ = _ => set (H := h) end.
    assert (Hmain : forall b acc hdr brs, In b l ->
       rs_ok buf brs -> window buf brs = rb_payload (raw_of b) ->
       rs_pos brs = (hdr + 12)%nat ->
       mem_get buf hdr 4 = ROk (le 4 (rb_id (raw_of b))) ->
       mem_get buf (hdr + 8) 4 = ROk (le 4 (rb_hsize (raw_of b))) ->
       H acc hdr brs = ROk (acc ++ [tree_of b])).
    { intros b acc hdr brs Hin Hbok Hbw Hbp M1 M2.
      pose proof (length_encode_kids _ _ Hin) as Hle.
      pose proof (ok_all_in _ _ Hokl Hin) as Hokb.
      pose proof (depth_all_in _ _ Hin) as Hdb.
      unfold H. rewrite M1, M2.
      assert (Hgen : exists id k hbytes rest,
         raw_of b = mk_rawblk id (12 + Z.of_nat (length hbytes) + k * 2 ^ 28) (hbytes ++ rest) /\
         0 <= id < 2 ^ 32 /\ 0 <= k < 16 /\
         (Z.testbit k 0 = false -> tree_of b = PRaw id (k * 2 ^ 28) hbytes rest) /\
         (Z.testbit k 0 = true -> exists kids, b = Node id hbytes kids /\ rest = encode_all kids /\ k = 1)).
      { destruct b as [id data|id k hb data|id hb kids]; cbn [raw_of ok] in *.
        - exists id, 0, [], data. repeat split; try tauto; try lia. discriminate.
        - exists id, k, hb, data. repeat split; try tauto; try lia. intros; destruct Hokb as (_ & _ & Hf & _); congruence.
        - exists id, 1, hb, (encode_all kids). repeat split; try tauto; try lia.
          + discriminate.
          + intros _. exists kids. auto. }
      destruct Hgen as (id & k & hbytes & rest & Hraw & Hid & Hk & Hl1 & Hl2).
      assert (Hlen : (12 + length hbytes + length rest <= length (encode_all l))%nat).
      { rewrite <- raw_of_enc, Hraw in Hle. unfold rb_enc in Hle. cbn [rb_id rb_hsize rb_payload] in Hle.
        rewrite enc_length, app_length in Hle. lia. }
      rewrite Hraw in *. cbn [rb_id rb_hsize rb_payload] in *.
      set (hs' := 12 + Z.of_nat (length hbytes) + k * 2 ^ 28) in *.
      assert (Hu : unle (le 4 hs') = hs').
      { apply unle_le_small. change (256 ^ Z.of_nat 4) with (2 ^ 32). unfold hs'. lia. }
      destruct (skip_header_enc buf brs hdr hs' k hbytes rest Hbok Hbw M2 Hbp eq_refl Hk ltac:(lia))
        as (rs' & E & R1 & R2 & R3 & R4).
      rewrite E.
      pose proof (window_length _ _ Hbok) as Hbl. rewrite Hbw, app_length in Hbl.
      replace (rs_pos rs' - rs_pos brs)%nat with (length hbytes) by lia.
      replace (rs_pos brs) with (rs_pos brs + 0)%nat at 1 by lia.
      rewrite (mem_get_window buf brs 0 (length hbytes) Hbok ltac:(lia)).
      rewrite Hbw. cbn [skipn]. rewrite firstn_exact, Hu. cbv zeta.
      assert (Hflag : hs' - Z.land hs' SIZE_MASK = k * 2 ^ 28).
      { change SIZE_MASK with (2 ^ 28 - 1). rewrite land_mask by lia. unfold hs'.
        rewrite Z.mod_add by lia. rewrite Z.mod_small by lia. lia. }
      rewrite Hflag. unfold hs' at 1. rewrite testbit28 by lia.
      assert (Hidu : unle (le 4 id) = id).
      { apply unle_le_small. change (256 ^ Z.of_nat 4) with (2 ^ 32). lia. }
      rewrite Hidu.
      destruct (Z.testbit k 0) eqn:Hbit.
      - destruct (Hl2 eq_refl) as (kids & -> & Hrest & ->). subst rest.
        rewrite (IH kids rs'); try assumption.
        + reflexivity.
        + cbn [ok] in Hokb. tauto.
        + cbn [depth] in Hdb. fold (depth_all kids) in Hdb. lia.
        + rewrite <- Hrest. lia.
      - rewrite (Hl1 eq_refl).
        pose proof (mem_get_window buf rs' 0 (rs_end rs' - rs_pos rs') R1 ltac:(lia)) as M.
        rewrite Nat.add_0_r in M. rewrite M. cbn [skipn]. rewrite R2.
        pose proof (window_length _ _ R1) as Hrl. rewrite R2 in Hrl. rewrite <- Hrl, firstn_all.
        reflexivity. }
    assert (Hlist : forall (l' : list blk) fuel' rs acc, incl l' l ->
       rs_ok buf rs -> window buf rs = encode_all l' -> (length l' <= fuel')%nat ->
       read_blocks buf (fun _ => true) H fuel' rs acc = ROk (acc ++ map tree_of l')).
    { induction l' as [|b l' IHl']; intros fuel' rs0 acc Hincl Hok0 Hw0 Hf0.
      - cbn in Hw0. pose proof (window_length _ _ Hok0) as Hl. rewrite Hw0 in Hl. cbn in Hl.
        cbn [map]. rewrite app_nil_r. destruct fuel'; cbn [read_blocks];
          destruct (Nat.leb_spec (rs_end rs0) (rs_pos rs0)); try lia; reflexivity.
      - assert (Hin : In b l) by (apply Hincl; left; reflexivity).
        pose proof (length_encode_kids _ _ Hin) as Hle.
        change (encode_all (b :: l')) with (encode b ++ encode_all l') in Hw0.
        rewrite <- raw_of_enc in Hw0, Hle. unfold rb_enc in Hw0, Hle. rewrite enc_length in Hle.
        destruct fuel' as [|fuel']; [cbn in Hf0; lia|]. cbn [read_blocks].
        pose proof (window_length _ _ Hok0) as Hl. rewrite Hw0, app_length, enc_length in Hl.
        destruct (Nat.leb_spec (rs_end rs0) (rs_pos rs0)); [lia|].
        destruct (read_block_enc _ _ _ _ _ _ Hok0 Hw0 ltac:(lia))
          as (brs & rs' & E & B1 & B2 & B3 & R1 & R2 & R3 & M1 & M2).
        rewrite E, M1.
        rewrite (Hmain b acc (rs_pos rs0) brs Hin B1 B2 B3 M1 M2).
        rewrite IHl'; try assumption.
        + cbn [map]. rewrite <- app_assoc. reflexivity.
        + intros x Hx. apply Hincl. right. exact Hx.
        + cbn in Hf0. lia. }
    rewrite (Hlist l fuel rs []); try assumption; [reflexivity|apply incl_refl|].
    pose proof (count_le_length l). pose proof (window_length _ _ Hok) as Hl. rewrite Hw in Hl.
    destruct Hok. lia.
Qed.

(* the file header is accepted and the rest of the file is the block stream *)
Lemma read_file_header_ok type created size rest :
  0 < type < 2 ^ 32 ->
  let buf := file_header size type created ++ rest in
  exists rs, read_file_header buf type = ROk (rs, 10) /\ rs_ok buf rs /\ window buf rs = rest.
Proof.
  intros Ht buf. unfold read_file_header.
  assert (Hl : length buf = (32 + length rest)%nat)
    by (unfold buf; rewrite app_length, file_header_length; reflexivity).
  destruct (Nat.ltb_spec (length buf) 32); [lia|].
  unfold mem_get. destruct (Nat.leb_spec (0 + 32) (length buf)); [|lia].
  change (skipn 0 buf) with buf. cbv zeta. replace (firstn 32 buf) with (file_header size type created).
  2:{ unfold buf. rewrite <- (file_header_length size type created). symmetry. apply firstn_exact. }
  assert (F0 : unle (firstn 4 (skipn 0 (file_header size type created))) = FILE_MAGIC) by reflexivity.
  assert (F8 : unle (firstn 4 (skipn 8 (file_header size type created))) = Z.lor 32 FLAG_CONTAINER) by reflexivity.
  assert (F16 : unle (firstn 4 (skipn 16 (file_header size type created))) = 10) by reflexivity.
  assert (F20 : unle (firstn 4 (skipn 20 (file_header size type created))) = type).
  { change (firstn 4 (skipn 20 (file_header size type created))) with (le 4 type).
    apply unle_le_small. change (256 ^ Z.of_nat 4) with (2 ^ 32). lia. }
  rewrite F0, F8, F16, F20, !Z.eqb_refl. cbn [negb].
  change (10 <? FILE_MIN_VERSION) with false. change (FILE_MAX_VERSION <? 10) with false.
  change (Z.land (Z.lor 32 FLAG_CONTAINER) SIZE_MASK) with 32. cbn [Z.ltb Z.compare Pos.compare Pos.compare_cont].
  destruct (Z.ltb_spec (Z.of_nat (length buf)) 32); [lia|].
  eexists. split; [reflexivity|]. change (Z.to_nat 32) with 32%nat.
  split; [split; cbn; lia|].
  unfold window. cbn [rs_pos rs_end]. unfold buf at 2.
  rewrite <- (file_header_length size type created) at 2. rewrite skipn_exact.
  apply firstn_all2. lia.
Qed.

(* ---------------- hostile input ---------------- *)

Lemma get_ptr_safe buf rs n :
  rs_ok buf rs ->
  match rs_get_ptr rs n with
  | ROk (p, rs') => p = rs_pos rs /\ within rs' rs /\ rs_end rs' = rs_end rs /\
                    (rs_pos rs' = p + n)%nat /\ (p + n <= length buf)%nat /\ rs_ok buf rs'
  | RBad => True
  | _ => False
  end.
Proof.
  intros [H1 H2]. unfold rs_get_ptr.
  destruct (Nat.ltb_spec (rs_end rs) (rs_pos rs)); [lia|].
  destruct (Nat.ltb_spec (rs_end rs - rs_pos rs) n); [exact I|].
  unfold within, rs_ok. cbn. lia.
Qed.

Lemma mem_get_ok buf i n : (i + n <= length buf)%nat ->
  mem_get buf i n = ROk (firstn n (skipn i buf)).
Proof. intros H. unfold mem_get. destruct (Nat.leb_spec (i + n) (length buf)); [reflexivity|lia]. Qed.

Lemma rs_read_safe buf rs n :
  rs_ok buf rs ->
  match rs_read buf rs n with
  | ROk (d, rs') => length d = n /\ within rs' rs /\ rs_ok buf rs'
  | RBad => True
  | _ => False
  end.
Proof.
  intros Hok. unfold rs_read. pose proof (get_ptr_safe buf rs n Hok) as H.
  destruct (rs_get_ptr rs n) as [[p rs']| | | |]; try tauto.
  destruct H as (Hp & Hw & He & Hp' & Hl & Hok'). rewrite mem_get_ok by exact Hl.
  repeat split; try tauto; try apply Hw; try apply Hok'.
  rewrite firstn_length, skipn_length. lia.
Qed.

Lemma read_block_safe buf rs :
  rs_ok buf rs ->
  match read_block buf rs with
  | ROk (hdr, brs, rs') =>
      hdr = rs_pos rs /\ within brs rs /\ within rs' rs /\ rs_ok buf brs /\ rs_ok buf rs' /\
      (hdr + 12 = rs_pos brs)%nat /\ rs_pos rs' = rs_end brs /\ rs_end rs' = rs_end rs
  | RBad => True
  | _ => False
  end.
Proof.
  intros Hok. unfold read_block. pose proof (get_ptr_safe buf rs 12 Hok) as H.
  destruct (rs_get_ptr rs 12) as [[p rs1]| | | |]; try tauto.
  destruct H as (Hp & Hw & He & Hp' & Hl & Hok1). rewrite mem_get_ok by lia.
  cbv zeta. destruct (unle _ <? 12); [exact I|].
  unfold rs_get_stream.
  match goal with |- context [rs_get_ptr rs1 ?n] =>
    pose proof (get_ptr_safe buf rs1 n Hok1) as H2; destruct (rs_get_ptr rs1 n) as [[p2 rs2]| | | |]
  end; try tauto.
  destruct H2 as (Hp2 & Hw2 & He2 & Hp2' & Hl2 & Hok2).
  unfold within, rs_ok in *. cbn. lia.
Qed.

Lemma skip_block_header_safe buf rs hdr :
  rs_ok buf rs -> (hdr + 12 <= length buf)%nat ->
  match skip_block_header buf rs hdr with
  | ROk rs' => within rs' rs /\ rs_end rs' = rs_end rs /\ rs_ok buf rs'
  | RBad => True
  | _ => False
  end.
Proof.
  intros Hok Hh. unfold skip_block_header. rewrite mem_get_ok by lia. cbv zeta.
  match goal with |- context [?a <? ?b] => destruct (a <? b) end; [exact I|].
  match goal with |- context [?a <? ?b] => destruct (a <? b) end.
  - match goal with |- context [rs_get_ptr rs ?n] =>
      pose proof (get_ptr_safe buf rs n Hok) as H2; destruct (rs_get_ptr rs n) as [[p2 rs2]| | | |]
    end; try tauto.
  - unfold within, rs_ok in *. lia.
Qed.

Lemma read_blocks_safe {S : Type} buf known (h : S -> nat -> rstream -> rres S) : forall fuel rs s,
  rs_ok buf rs ->
  (forall s hdr brs, within brs rs -> rs_ok buf brs -> (hdr + 12 = rs_pos brs)%nat ->
     (rs_pos rs <= hdr)%nat -> h s hdr brs <> RUB /\ h s hdr brs <> RFuel) ->
  read_blocks buf known h fuel rs s <> RUB /\
  ((rs_end rs - rs_pos rs <= fuel)%nat -> read_blocks buf known h fuel rs s <> RFuel).
Proof.
  induction fuel as [|fuel IH]; intros rs s Hok Hh; cbn [read_blocks];
    destruct (Nat.leb_spec (rs_end rs) (rs_pos rs)) as [Hle|Hgt].
  - split; [discriminate|intros _; discriminate].
  - split; [discriminate|]. intros. lia.
  - split; [discriminate|intros _; discriminate].
  - pose proof (read_block_safe buf rs Hok) as H.
    destruct (read_block buf rs) as [[[hdr brs] rs']| | | |]; try (split; [discriminate|intros _; discriminate]); try tauto.
    destruct H as (Hhdr & Hwb & Hwr & Hokb & Hokr & Hp & Hq & Hr).
    rewrite mem_get_ok by (unfold rs_ok, within in *; lia).
    assert (IH' : forall s', read_blocks buf known h fuel rs' s' <> RUB /\
       ((rs_end rs - rs_pos rs <= Datatypes.S fuel)%nat -> read_blocks buf known h fuel rs' s' <> RFuel)).
    { intros s'. destruct (IH rs' s' Hokr) as [A B].
      - intros. apply Hh; try assumption; unfold within in *; lia.
      - split; [exact A|]. intros. apply B. unfold within in *. lia. }
    destruct (known (firstn 4 (skipn hdr buf))); [|apply IH'].
    destruct (Hh s hdr brs Hwb Hokb Hp ltac:(lia)) as [Ha Hb].
    destruct (h s hdr brs) as [s'| | | |]; try (split; [discriminate|intros _; discriminate]); try congruence.
    apply IH'.
Qed.

Lemma read_tree_safe buf fuel : forall d rs,
  rs_ok buf rs -> (length buf <= fuel)%nat ->
  read_tree d buf fuel rs <> RUB /\
  ((rs_end rs - rs_pos rs < d)%nat -> read_tree d buf fuel rs <> RFuel).
Proof.
  induction d as [|d IH]; intros rs Hok Hf.
  - cbn. destruct (rs_end rs <=? rs_pos rs)%nat; split; try discriminate; lia.
  - cbn [read_tree].
    set (h := fun (acc : list ptree) hdr brs => _).
    assert (Hh : forall acc hdr brs, within brs rs -> rs_ok buf brs -> (hdr + 12 = rs_pos brs)%nat ->
       (rs_pos rs <= hdr)%nat ->
       h acc hdr brs <> RUB /\ ((rs_end rs - rs_pos rs < S d)%nat -> h acc hdr brs <> RFuel)).
    { intros acc hdr brs Hw Hokb Hp Hle. unfold h.
      assert (Hlen : (hdr + 12 <= length buf)%nat) by (unfold rs_ok in *; lia).
      rewrite !mem_get_ok by lia.
      pose proof (skip_block_header_safe buf brs hdr Hokb Hlen) as Hs.
      destruct (skip_block_header buf brs hdr) as [rs'| | | |]; try (split; [discriminate|intros _; discriminate]); try tauto.
      destruct Hs as (Hw' & He' & Hok').
      rewrite mem_get_ok by (unfold within, rs_ok in *; lia). cbv zeta.
      destruct (Z.testbit _ 28).
      - destruct (IH rs' Hok' Hf) as [A B].
        destruct (read_tree d buf fuel rs') as [kids| | | |] eqn:E;
          try (split; [discriminate|intros _; discriminate]); try congruence.
        split; [discriminate|]. intros Hd. exfalso. apply B; [|reflexivity].
        unfold within in *. lia.
      - rewrite mem_get_ok by (unfold within, rs_ok in *; lia).
        split; [discriminate|intros _; discriminate]. }
    destruct (Nat.lt_ge_cases (rs_end rs - rs_pos rs) (S d)) as [Hd|Hd].
    + destruct (read_blocks_safe buf (fun _ => true) h fuel rs [] Hok) as [A B].
      * intros s hdr brs H1 H2 H3 H4. destruct (Hh s hdr brs H1 H2 H3 H4) as [C D]. auto.
      * split; [exact A|]. intros _. apply B. unfold rs_ok in Hok. lia.
    + split; [|lia].
      (* only RUB matters: weaken the handler condition *)
      clear IH. assert (G : forall fuel' rs0 s, rs_ok buf rs0 -> within rs0 rs ->
         read_blocks buf (fun _ => true) h fuel' rs0 s <> RUB).
      { induction fuel' as [|fuel' IHf]; intros rs0 s Hok0 Hw0; cbn [read_blocks];
          destruct (Nat.leb_spec (rs_end rs0) (rs_pos rs0)); try discriminate.
        pose proof (read_block_safe buf rs0 Hok0) as H0.
        destruct (read_block buf rs0) as [[[hdr brs] rs']| | | |]; try discriminate; try tauto.
        destruct H0 as (Hhdr & Hwb & Hwr & Hokb & Hokr & Hp & Hq & Hr).
        rewrite mem_get_ok by (unfold rs_ok, within in *; lia).
        destruct (Hh s hdr brs) as [C _]; try assumption; try (unfold within in *; lia).
        destruct (h s hdr brs); try discriminate; try congruence.
        apply IHf; [assumption|unfold within in *; lia]. }
      apply G; [exact Hok|unfold within, rs_ok in *; lia].
Qed.

Lemma read_file_header_safe buf type :
  match read_file_header buf type with
  | ROk (rs, _) => rs_ok buf rs /\ (32 <= rs_pos rs)%nat
  | RBad | RDeclined => True
  | _ => False
  end.
Proof.
  unfold read_file_header. destruct (Nat.ltb_spec (length buf) 32); [exact I|].
  rewrite mem_get_ok by lia. cbv zeta.
  repeat match goal with |- context [if negb ?x then _ else _] => destruct x; cbn [negb]; [|exact I] end.
  repeat match goal with |- context [if ?a <? ?b then _ else _] => destruct (Z.ltb_spec a b); [exact I|] end.
  unfold rs_ok. cbn [rs_pos rs_end]. lia.
Qed.

(* ---------------- strings ---------------- *)

Lemma wstream_str_flat bs w s :
  Z.of_nat (length s) < 2 ^ 32 ->
  exists w', pw_run bs w (wstream_str s) = PwOk w' /\
    flat w' = flat w ++ le 4 (Z.of_nat (length s)) ++ s /\ pw_blocks w' = pw_blocks w /\
    pw_size w' = pw_size w + 4 + Z.of_nat (length s).
Proof.
  intros Hs. unfold wstream_str. cbn [pw_run pw_step].
  assert (E : firstn (Z.to_nat (u32 (Z.of_nat (length s)))) s = s).
  { unfold u32. rewrite Z.mod_small, Nat2Z.id by lia. apply firstn_all. }
  rewrite E.
  destruct (write_spec bs w (le 4 (Z.of_nat (length s)))) as (P1 & P2 & P3 & P4).
  destruct (write_spec bs (pw_write bs w (le 4 (Z.of_nat (length s)))) s) as (Q1 & Q2 & Q3 & Q4).
  eexists. split; [reflexivity|]. rewrite Q1, P1, Q3, P3, Q4, P4, le_length, <- app_assoc.
  repeat split; lia.
Qed.

Lemma rs_read_ok buf rs x rest :
  rs_ok buf rs -> window buf rs = x ++ rest ->
  exists rs', rs_read buf rs (length x) = ROk (x, rs') /\ rs_ok buf rs' /\ window buf rs' = rest.
Proof.
  intros Hok Hw. pose proof (window_length _ _ Hok) as Hl. rewrite Hw, app_length in Hl.
  unfold rs_read.
  destruct (get_ptr_window buf rs (length x) Hok ltac:(lia)) as (G1 & G2 & G3). rewrite G1.
  pose proof (mem_get_window buf rs 0 (length x) Hok ltac:(lia)) as M.
  rewrite Nat.add_0_r in M. rewrite M. cbn [skipn]. rewrite Hw, firstn_exact.
  eexists. split; [reflexivity|]. split; [exact G2|]. rewrite G3, Hw. apply skipn_exact.
Qed.

Lemma str_get_ok buf rs s rest :
  rs_ok buf rs -> Z.of_nat (length s) < 2 ^ 32 ->
  window buf rs = le 4 (Z.of_nat (length s)) ++ s ++ rest ->
  exists p rs', rs_str_get buf rs = ROk (p, length s, rs') /\
    mem_get buf p (length s) = ROk s /\ rs_ok buf rs' /\ window buf rs' = rest.
Proof.
  intros Hok Hs Hw. unfold rs_str_get.
  destruct (rs_read_ok buf rs _ _ Hok Hw) as (rs1 & E & O1 & W1). rewrite le_length in E. rewrite E.
  rewrite unle_le_small by (change (256 ^ Z.of_nat 4) with (2 ^ 32); lia). rewrite Nat2Z.id.
  pose proof (window_length _ _ O1) as Hl. rewrite W1, app_length in Hl.
  destruct (get_ptr_window buf rs1 (length s) O1 ltac:(lia)) as (K1 & K2 & K3).
  pose proof (mem_get_window buf rs1 0 (length s) O1 ltac:(lia)) as M.
  rewrite Nat.add_0_r in M. cbn [skipn] in M. rewrite W1, firstn_exact in M.
  rewrite K1. eexists. eexists. split; [reflexivity|]. split; [exact M|]. split; [exact K2|].
  rewrite K3, W1. apply skipn_exact.
Qed.

Lemma str_get_truncated buf rs s k :
  rs_ok buf rs -> Z.of_nat (length s) < 2 ^ 32 -> (k < 4 + length s)%nat ->
  window buf rs = firstn k (le 4 (Z.of_nat (length s)) ++ s) ->
  rs_str_get buf rs = RBad.
Proof.
  intros Hok Hs Hk Hw. pose proof (window_length _ _ Hok) as Hl.
  rewrite Hw, firstn_length, app_length, le_length in Hl.
  unfold rs_str_get. destruct (Nat.lt_ge_cases k 4) as [H4|H4].
  - unfold rs_read, rs_get_ptr. destruct Hok as [O1 O2].
    destruct (Nat.ltb_spec (rs_end rs) (rs_pos rs)); [lia|].
    destruct (Nat.ltb_spec (rs_end rs - rs_pos rs) 4); [reflexivity|lia].
  - rewrite firstn_app, le_length in Hw. rewrite (firstn_all2 (n := k)) in Hw by (rewrite le_length; lia).
    destruct (rs_read_ok buf rs _ _ Hok Hw) as (rs1 & E & O1 & W1). rewrite le_length in E. rewrite E.
    rewrite unle_le_small by (change (256 ^ Z.of_nat 4) with (2 ^ 32); lia). rewrite Nat2Z.id.
    pose proof (window_length _ _ O1) as Hl1. rewrite W1, firstn_length in Hl1.
    unfold rs_get_ptr. destruct O1 as [O1 O2].
    destruct (Nat.ltb_spec (rs_end rs1) (rs_pos rs1)); [lia|].
    destruct (Nat.ltb_spec (rs_end rs1 - rs_pos rs1) (length s)); [reflexivity|lia].
Qed.

Lemma str_get_safe buf rs :
  rs_ok buf rs ->
  match rs_str_get buf rs with
  | ROk (p, n, rs') => (p + n <= rs_end rs)%nat /\ (rs_pos rs <= p)%nat /\ within rs' rs /\ rs_ok buf rs'
  | RBad => True
  | _ => False
  end.
Proof.
  intros Hok. unfold rs_str_get. pose proof (rs_read_safe buf rs 4 Hok) as H.
  destruct (rs_read buf rs 4) as [[lb rs1]| | | |]; try tauto.
  destruct H as (H1 & H2 & H3). pose proof (get_ptr_safe buf rs1 (Z.to_nat (unle lb)) H3) as G.
  destruct (rs_get_ptr rs1 (Z.to_nat (unle lb))) as [[p rs2]| | | |]; try tauto.
  destruct G as (G1 & G2 & G3 & G4 & G5 & G6). unfold within, rs_ok in *. lia.
Qed.

Lemma str_fixed_safe buf rs max :
  rs_ok buf rs ->
  match rs_str_fixed buf rs max with
  | ROk (d, rs') => (length d <= max)%nat /\ within rs' rs /\ rs_ok buf rs'
  | RBad => True
  | _ => False
  end.
Proof.
  intros Hok. unfold rs_str_fixed. pose proof (rs_read_safe buf rs 4 Hok) as H.
  destruct (rs_read buf rs 4) as [[lb rs1]| | | |]; try tauto.
  destruct H as (H1 & H2 & H3). destruct (Nat.ltb_spec max (Z.to_nat (unle lb))); [exact I|].
  pose proof (rs_read_safe buf rs1 (Z.to_nat (unle lb)) H3) as G.
  destruct (rs_read buf rs1 (Z.to_nat (unle lb))) as [[d rs2]| | | |]; try tauto.
  destruct G as (G1 & G2 & G3). unfold within, rs_ok in *. lia.
Qed.

Lemma str_fixed_ok buf rs max s rest :
  rs_ok buf rs -> Z.of_nat (length s) < 2 ^ 32 ->
  window buf rs = le 4 (Z.of_nat (length s)) ++ s ++ rest ->
  if (length s <=? max)%nat then
    exists rs', rs_str_fixed buf rs max = ROk (s, rs') /\ rs_ok buf rs' /\ window buf rs' = rest
  else rs_str_fixed buf rs max = RBad.
Proof.
  intros Hok Hs Hw. unfold rs_str_fixed.
  destruct (rs_read_ok buf rs _ _ Hok Hw) as (rs1 & E & O1 & W1). rewrite le_length in E. rewrite E.
  rewrite unle_le_small by (change (256 ^ Z.of_nat 4) with (2 ^ 32); lia). rewrite Nat2Z.id.
  destruct (rs_read_ok buf rs1 _ _ O1 W1) as (rs2 & E2 & O2 & W2).
  destruct (Nat.leb_spec (length s) max); destruct (Nat.ltb_spec max (length s)); try lia; [|reflexivity].
  exists rs2. auto.
Qed.

(* ---- room in the current buffer ---- *)

Definition fits (bs : nat) (w : pw) : Prop := (length (pw_cur w) + pw_left w <= bs)%nat.

Lemma put_fits bs w b : (1 <= bs)%nat -> fits bs w -> fits bs (pw_put bs w b).
Proof.
  intros Hb H. unfold pw_put, fits in *. destruct (pw_left w) as [|l] eqn:E; cbn [pw_cur pw_left length].
  - lia.
  - rewrite app_length. cbn [length]. lia.
Qed.

Lemma write_fits bs w d : (1 <= bs)%nat -> fits bs w -> fits bs (pw_write bs w d).
Proof.
  intros Hb H. unfold pw_write. assert (H' : fits bs (pw_add_size w (Z.of_nat (length d)))) by exact H.
  revert H'. generalize (pw_add_size w (Z.of_nat (length d))). clear w H.
  induction d as [|x d IH]; intros w H; cbn [fold_left]; [exact H|]. apply IH. apply put_fits; assumption.
Qed.

Lemma reserve_fits bs w n w2 m : (1 <= bs)%nat -> fits bs w -> pw_reserve bs w n = (w2, m) -> fits bs w2.
Proof. intros Hb H E. unfold pw_reserve in E. injection E as <- _. apply write_fits; assumption. Qed.

Lemma patch_len b d off : (length d <= length b - off)%nat -> length (patch b d off) = length b.
Proof.
  intros H. unfold patch. rewrite !app_length, firstn_length, skipn_length. lia.
Qed.

Lemma marker_loop_len nodes : forall off d r, marker_loop nodes off d = Some r ->
  map (@length Z) r = map (@length Z) nodes.
Proof.
  induction nodes as [|b rest IH]; intros off d r H; [discriminate|]. cbn [marker_loop] in H.
  destruct (Nat.leb_spec (length d) (length b - off)).
  - injection H as <-. cbn [map]. rewrite patch_len by assumption. reflexivity.
  - destruct (marker_loop rest 0 _) as [r'|] eqn:E; [|discriminate]. injection H as <-.
    cbn [map]. rewrite patch_len by (rewrite firstn_length; lia). f_equal. eapply IH. exact E.
Qed.

Lemma map_last_len (l : list (list Z)) x : map (@length Z) l = map (@length Z) x ->
  length (last l []) = length (last x []).
Proof.
  intros H. change (length (last l [])) with ((@length Z) (last l [])).
  assert (G : forall l : list (list Z), length (last l []) = last (map (@length Z) l) 0%nat).
  { clear. induction l as [|a [|b l] IH]; [reflexivity|reflexivity|]. exact IH. }
  rewrite !G, H. reflexivity.
Qed.

Lemma marker_write_fits bs w m d w' : fits bs w -> marker_write w m d = PwOk w' -> fits bs w'.
Proof.
  intros H E. unfold marker_write in E.
  destruct (marker_loop _ _ _) as [r|] eqn:El; [|discriminate]. injection E as <-.
  unfold fits in *. cbn [pw_cur pw_left]. apply marker_loop_len in El.
  rewrite (map_last_len _ (pw_done w ++ [pw_cur w])).
  - rewrite last_last. exact H.
  - rewrite map_app, El, <- map_app, firstn_skipn. reflexivity.
Qed.

Lemma set_header_fits bs w f : fits bs w -> fits bs (pw_set_header w f).
Proof.
  unfold pw_set_header. destruct (pw_blocks w) as [|b r]; [auto|]. destruct (_ =? 0); auto.
Qed.

Lemma step_fits bs w o w' : (32 <= bs)%nat -> fits bs w -> pw_step bs w o = PwOk w' -> fits bs w'.
Proof.
  intros Hb H E. destruct o; cbn [pw_step] in E.
  - injection E as <-. apply write_fits; [lia|exact H].
  - injection E as <-. unfold pw_append, fits in *. cbn [pw_cur pw_left pw_add_size].
    destruct w as [dn [|z l] lf sz bl]; cbn [pw_flush pw_cur pw_left length pw_add_size] in *.
    + lia.
    + destruct lf; lia.
  - unfold pw_open in E. destruct (_ <=? _)%nat; [discriminate|].
    destruct (pw_reserve bs (pw_set_header w FLAG_CONTAINER) 12) as [w2 m] eqn:Er.
    apply reserve_fits in Er; [|lia|apply set_header_fits; exact H].
    injection E as <-. exact Er.
  - injection E as <-. apply set_header_fits. exact H.
  - unfold pw_close in E. destruct (pw_blocks w) as [|b r]; [discriminate|].
    eapply marker_write_fits; [|exact E]. exact H.
  - injection E as <-. unfold pw_write_block. apply write_fits; [lia|]. apply write_fits; [lia|].
    apply set_header_fits. exact H.
Qed.

Lemma run_fits bs ops : (32 <= bs)%nat -> forall w w', fits bs w -> pw_run bs w ops = PwOk w' -> fits bs w'.
Proof.
  intros Hb. induction ops as [|o ops IH]; intros w w' H E; cbn [pw_run] in E.
  - injection E as <-. exact H.
  - destruct (pw_step bs w o) as [w1| |] eqn:Es; try discriminate.
    eapply IH; [|exact E]. eapply step_fits; eassumption.
Qed.

Lemma init_fits bs type created : (32 <= bs)%nat -> fits bs (pw_init bs type created).
Proof.
  intros Hb. unfold pw_init, fits. destruct (type =? 0); cbn [pw_cur pw_left length]; [lia|].
  rewrite !app_length, firstn_length, skipn_length, repeat_length.
  assert (E : length (file_header 0 type created) = 32%nat).
  { unfold file_header. rewrite !app_length, !le_length. reflexivity. }
  rewrite E. cbn [Nat.min Nat.sub]. lia.
Qed.

Lemma capacity_ok bs type created ops w : (32 <= bs)%nat ->
  pw_run bs (pw_init bs type created) ops = PwOk w ->
  (length (pw_cur w) + pw_left w <= bs)%nat.
Proof. intros Hb E. eapply run_fits; [exact Hb| |exact E]. apply init_fits. exact Hb. Qed.
