(* Proofs about the MPEG-TS muxer, part 3: what a player can tell from what was
   pushed; the queue of frames of the buffer. *)

From Coq Require Import ZArith List Bool Lia ZifyBool.
From Verif Require Import Lists TsModel TsSpec MuxModel MuxSpec MuxProofs MuxProofs2.
Import ListNotations.
Open Scope Z_scope.

(* ---------- sublists, first_pts ---------- *)

Lemma sub_refl A (l : list A) : sublist l l.
Proof. induction l; [apply sl_nil|apply sl_take; assumption]. Qed.

Lemma sub_nil A (l : list A) : sublist [] l.
Proof. induction l; [apply sl_nil|apply sl_skip; assumption]. Qed.

Lemma sub_app A (a b c d : list A) : sublist a b -> sublist c d -> sublist (a ++ c) (b ++ d).
Proof. intros H1 H2. induction H1; cbn; [exact H2|apply sl_skip; auto|apply sl_take; auto]. Qed.

Lemma find_app A (p : A -> bool) a b :
  find p (a ++ b) = match find p a with Some x => Some x | None => find p b end.
Proof. induction a as [|x a IH]; cbn; [reflexivity|]. destruct (p x); auto. Qed.

Lemma find_filter A (p q : A -> bool) l : (forall x, p x = true -> q x = true) ->
  find p l = find p (filter q l).
Proof.
  intros H. induction l as [|x l IH]; cbn; [reflexivity|].
  destruct (p x) eqn:E1.
  - rewrite (H x E1). cbn. rewrite E1. reflexivity.
  - destruct (q x); cbn; rewrite ?E1; exact IH.
Qed.

Lemma first_app m r off x : first_pts m off = Some x -> first_pts (m ++ r) off = Some x.
Proof.
  unfold first_pts. rewrite find_app. destruct (find (fun m0 => off <=? fst m0) m); [auto|discriminate].
Qed.

Lemma first_here m r off p : Forall (fun x => fst x < off) m -> first_pts (m ++ (off, p) :: r) off = Some p.
Proof.
  intros H. unfold first_pts. rewrite find_app. induction H as [|x m Hx H IH]; cbn [find fst snd].
  - rewrite Z.leb_refl. reflexivity.
  - destruct (off <=? fst x) eqn:E; [lia|]. exact IH.
Qed.

Definition near (e : Z) (m : Z * Z) : bool := e - 184 <? fst m.

Lemma first_near m1 m2 r1 r2 e p off :
  filter (near e) m1 = filter (near e) m2 -> e - 184 < off <= e ->
  first_pts (m1 ++ (e, p) :: r1) off = first_pts (m2 ++ (e, p) :: r2) off /\
  exists x, first_pts (m1 ++ (e, p) :: r1) off = Some x.
Proof.
  intros H Ho. unfold first_pts. rewrite !find_app.
  assert (HQ : forall x : Z * Z, (off <=? fst x) = true -> near e x = true) by (intros x Hx; unfold near; lia).
  rewrite (find_filter _ _ _ m1 HQ), (find_filter _ _ _ m2 HQ), H.
  destruct (find (fun m => off <=? fst m) (filter (near e) m2)) as [x|]; [split; [reflexivity|eauto]|].
  cbn [find fst snd]. replace (off <=? e) with true by lia. split; [reflexivity|eauto].
Qed.

Lemma filter_filter A (p q : A -> bool) l : (forall x, p x = true -> q x = true) ->
  filter p (filter q l) = filter p l.
Proof.
  intros H. induction l as [|x l IH]; cbn; [reflexivity|].
  destruct (q x) eqn:E; cbn; rewrite ?IH; [reflexivity|].
  destruct (p x) eqn:E2; [rewrite (H _ E2) in E; discriminate|reflexivity].
Qed.

Lemma near_more m1 m2 e e' : filter (near e) m1 = filter (near e) m2 -> e <= e' ->
  filter (near e') m1 = filter (near e') m2.
Proof.
  intros H He. assert (HQ : forall x : Z * Z, near e' x = true -> near e x = true) by (intros x; unfold near; lia).
  rewrite <- (filter_filter _ _ _ m1 HQ), <- (filter_filter _ _ _ m2 HQ), H. reflexivity.
Qed.

Notation pfull := (fun p : frame * list Z => snd p <> []).

Lemma pmarks_range ps : Forall pfull ps -> forall off,
  Forall (fun m => off <= fst m < off + zlen (pdata ps)) (pmarks off ps).
Proof.
  unfold pmarks, pdata. intros HF. induction HF as [|[f x] ps Hx HF IH]; intros off; [constructor|].
  cbn [pbegins map concat snd fst] in *. rewrite zlen_app. pose proof (zlen_pos x Hx).
  pose proof (zlen_ge (concat (map snd ps))).
  constructor; [cbn; lia|]. eapply Forall_impl; [|exact (IH (off + zlen x))]. cbn. intros; lia.
Qed.

(* ---------- what a player can tell ---------- *)

Record HI (c : conf) (h : hist) (F : list (frame * list Z)) : Prop := {
  hi_data : h_data h = pdata F;
  hi_full : Forall pfull F;
  hi_sub : sublist (h_frames h) (pbegins 0 F);
  hi_cov : forall pos f off, In (pos, f) (h_frames h) -> pos - 184 < off <= pos ->
    (c_align c = true -> off = pos) ->
    exists x, first_pts (h_marks h) off = Some x /\ first_pts (pmarks 0 F) off = Some x;
  hi_lt : Forall (fun m => fst m < zlen (h_data h)) (h_marks h);
  hi_near : c_align c = false ->
    filter (near (zlen (h_data h))) (h_marks h) = filter (near (zlen (h_data h))) (pmarks 0 F)
}.

Lemma HI_nil c : HI c (Hist [] [] []) [].
Proof. constructor; cbn; auto; try constructor. intros ? ? ? []. Qed.

Lemma HI_add c h F f0 e0 G' M' (st : bool) :
  HI c h F -> Forall pfull ((f0, e0) :: G') ->
  let G := (f0, e0) :: G' in let E := zlen (h_data h) in
  Forall (fun m => fst m < E + zlen (pdata G)) M' ->
  (c_align c = false -> filter (near (E + zlen (pdata G))) ((E, f_pts f0) :: M') =
                        filter (near (E + zlen (pdata G))) (pmarks E G)) ->
  HI c (Hist (h_data h ++ pdata G) (h_marks h ++ (E, f_pts f0) :: M')
          (h_frames h ++ (if st then [(E, f0)] else []))) (F ++ G).
Proof.
  intros HH HF G E HM HN.
  assert (EE : E = 0 + zlen (pdata F)) by (subst E; rewrite (hi_data _ _ _ HH); lia).
  assert (EG : exists MG, pmarks E G = (E, f_pts f0) :: MG) by (eexists; reflexivity).
  destruct EG as (MG & EG).
  assert (HltF : Forall (fun m => fst m < E) (pmarks 0 F)).
  { eapply Forall_impl; [|exact (pmarks_range F (hi_full _ _ _ HH) 0)]. cbn. intros; lia. }
  assert (Hpos : 0 < zlen (pdata G)).
  { subst G. inversion HF as [|? ? H1 H2]; subst. unfold pdata. cbn [map concat snd] in *. rewrite zlen_app.
    pose proof (zlen_pos e0 H1). pose proof (zlen_ge (concat (map snd G'))). lia. }
  constructor; cbn [h_data h_marks h_frames].
  - rewrite (hi_data _ _ _ HH), pdata_app. reflexivity.
  - apply Forall_app. split; [exact (hi_full _ _ _ HH)|exact HF].
  - rewrite pbegins_app, <- EE. apply sub_app; [exact (hi_sub _ _ _ HH)|].
    destruct st; [|apply sub_nil]. subst G. cbn [pbegins]. apply sl_take. apply sub_nil.
  - intros pos f off HI0 Ho Ha. apply in_app_or in HI0. destruct HI0 as [HI0|HI0].
    + destruct (hi_cov _ _ _ HH pos f off HI0 Ho Ha) as (x & H1 & H2). exists x.
      split; [apply first_app; exact H1|]. rewrite pmarks_app. apply first_app. exact H2.
    + destruct st; [|destruct HI0]. destruct HI0 as [HI0|[]]. injection HI0 as <- <-.
      rewrite pmarks_app, <- EE, EG.
      destruct (c_align c) eqn:EA.
      * rewrite (Ha eq_refl). exists (f_pts f0). split; [apply first_here; exact (hi_lt _ _ _ HH)|].
        apply first_here. exact HltF.
      * destruct (first_near _ _ M' MG E (f_pts f0) off (hi_near _ _ _ HH EA) Ho) as (E1 & x & E2).
        exists x. split; [exact E2|]. rewrite <- E1. exact E2.
  - rewrite zlen_app. apply Forall_app. fold E. split.
    + eapply Forall_impl; [|exact (hi_lt _ _ _ HH)]. intros m Hm. change (fst m < E) in Hm.
      change (fst m < E + zlen (pdata G)). lia.
    + constructor; [cbn [fst]; lia|exact HM].
  - intros EA. rewrite zlen_app. fold E. rewrite pmarks_app, <- EE, !filter_app. f_equal; [|exact (HN EA)].
    apply (near_more _ _ E); [exact (hi_near _ _ _ HH EA)|lia].
Qed.

(* ---------- the queue ---------- *)

Fixpoint pends (p : nat) (B : list (frame * list Z)) : list (frame * nat) :=
  match B with [] => [] | (f, x) :: B => (f, p + length x)%nat :: pends (p + length x) B end.

Definition plen (B : list (frame * list Z)) : nat := length (pdata B).

Lemma plen_app a b : plen (a ++ b) = (plen a + plen b)%nat.
Proof. unfold plen. rewrite pdata_app, app_length. reflexivity. Qed.

Lemma plen_cons f x B : plen ((f, x) :: B) = (length x + plen B)%nat.
Proof. unfold plen, pdata. cbn [map concat snd]. apply app_length. Qed.

Lemma pends_app a : forall p b, pends p (a ++ b) = pends p a ++ pends (p + plen a) b.
Proof.
  induction a as [|[f x] a IH]; intros p b; cbn [app pends].
  - f_equal. cbn. lia.
  - rewrite IH, plen_cons. do 3 f_equal. lia.
Qed.

Lemma pends_length B : forall p, length (pends p B) = length B.
Proof. induction B as [|[f x] B IH]; intros p; cbn; auto. Qed.

Definition idx (r j : nat) : nat := if (28 <=? r + j)%nat then (r + j - 28)%nat else (r + j)%nat.

Lemma inc_idx r : (r < 28)%nat -> inc r = idx r 1.
Proof. intros H. unfold inc, idx, ring_size. replace (r + 1)%nat with (S r) by lia. destruct (28 <=? S r)%nat eqn:E; lia. Qed.

Lemma idx_lt r j : (r < 28)%nat -> (j <= 28)%nat -> (idx r j < 28)%nat.
Proof. intros H1 H2. unfold idx. destruct (28 <=? r + j)%nat eqn:E; lia. Qed.

Lemma idx_idx r i j : (r < 28)%nat -> (i + j <= 28)%nat -> idx (idx r i) j = idx r (i + j).
Proof.
  intros H1 H2. unfold idx. destruct (28 <=? r + i)%nat eqn:E1.
  - destruct (28 <=? r + i - 28 + j)%nat eqn:E2; [lia|]. destruct (28 <=? r + (i + j))%nat eqn:E3; lia.
  - destruct (28 <=? r + i + j)%nat eqn:E2; destruct (28 <=? r + (i + j))%nat eqn:E3; lia.
Qed.

Lemma idx_inj r i j : (r < 28)%nat -> (i < 28)%nat -> (j < 28)%nat -> idx r i = idx r j -> i = j.
Proof.
  intros H1 H2 H3. unfold idx. destruct (28 <=? r + i)%nat eqn:E1; destruct (28 <=? r + j)%nat eqn:E2; lia.
Qed.

Lemma idx_0 r : (r < 28)%nat -> idx r 0 = r.
Proof. intros H. unfold idx. destruct (28 <=? r + 0)%nat eqn:E; lia. Qed.

Lemma idx_28 r : (r < 28)%nat -> idx r 28 = r.
Proof. intros H. unfold idx. destruct (28 <=? r + 28)%nat eqn:E; lia. Qed.

(* From which the frames are read, and how many. *)
Definition from (b : buf) : nat := if bf_full b then inc (bf_w b) else bf_r b.

Record RI (b : buf) (B : list (frame * list Z)) : Prop := {
  ri_len : length (bf_ring b) = 28%nat;
  ri_w : (bf_w b < 28)%nat;
  ri_r : (bf_r b < 28)%nat;
  ri_full : bf_full b = (28 <=? length B)%nat;
  ri_pos : bf_w b = idx (from b) (Nat.min (length B) 27);
  ri_nth : forall j, (j < Nat.min (length B) 27)%nat ->
    nth (idx (from b) j) (bf_ring b) (frame0, O) =
    nth (length B - Nat.min (length B) 27 + j) (pends 0 B) (frame0, O)
}.

Lemma from_lt b B : RI b B -> (from b < 28)%nat.
Proof.
  intros H. unfold from. destruct (bf_full b); [|exact (ri_r _ _ H)].
  rewrite inc_idx by exact (ri_w _ _ H). apply idx_lt; [exact (ri_w _ _ H)|lia].
Qed.

Lemma nth_set_eq' A (l : list A) i x d : (i < length l)%nat -> nth i (set_nth l i x) d = x.
Proof. revert i. induction l as [|y l IH]; intros [|i] H; cbn in *; try lia; auto. apply IH. lia. Qed.

Lemma nth_set_neq' A (l : list A) i j x d : i <> j -> nth j (set_nth l i x) d = nth j l d.
Proof. revert i j. induction l as [|y l IH]; intros [|i] [|j] H; cbn; auto; try congruence. Qed.

Lemma RI_push b B f x : RI b B ->
  forall b', bf_ring b' = set_nth (bf_ring b) (bf_w b) (f, plen (B ++ [(f, x)])) ->
  bf_w b' = inc (bf_w b) -> bf_r b' = bf_r b ->
  bf_full b' = bf_full b || (inc (bf_w b) =? bf_r b)%nat ->
  RI b' (B ++ [(f, x)]).
Proof.
  intros H b' E1 E2 E3 E4. pose proof (from_lt _ _ H) as Hfr. destruct H as [L W R FU P N].
  assert (HL : length (B ++ [(f, x)]) = S (length B)) by (rewrite app_length; cbn; lia).
  assert (Hw : inc (bf_w b) = idx (bf_w b) 1) by (apply inc_idx; exact W).
  (* the place of the new frame *)
  assert (Hpl : bf_w b = idx (from b) (Nat.min (length B) 27)) by exact P.
  assert (Hfull : bf_full b' = (28 <=? S (length B))%nat).
  { rewrite E4. rewrite FU. destruct (28 <=? length B)%nat eqn:E5; [cbn [orb]; lia|]. cbn [orb].
    assert (Hf : from b = bf_r b) by (unfold from; rewrite FU; reflexivity).
    rewrite Hf in P. rewrite Nat.min_l in P by lia. rewrite Hw, P, idx_idx by lia.
    destruct (28 <=? S (length B))%nat eqn:E6.
    - replace (length B + 1)%nat with 28%nat by lia. rewrite idx_28 by exact R. apply Nat.eqb_refl.
    - apply Nat.eqb_neq. intros C. rewrite <- (idx_0 (bf_r b) R) in C at 2.
      apply idx_inj in C; lia. }
  assert (Hfrom : from b' = if (28 <=? S (length B))%nat then idx (from b) 1 else from b).
  { unfold from at 1. rewrite Hfull. destruct (28 <=? S (length B))%nat eqn:E6.
    - rewrite E2, Hw, inc_idx by (apply idx_lt; lia). rewrite P.
      rewrite Nat.min_r by lia. rewrite (idx_idx (from b) 27 1) by lia.
      change (27 + 1)%nat with 28%nat. rewrite idx_28 by exact Hfr. reflexivity.
    - rewrite E3. unfold from. rewrite FU. replace (28 <=? length B)%nat with false by lia. reflexivity. }
  constructor.
  - rewrite E1, set_nth_length. exact L.
  - rewrite E2, Hw. apply idx_lt; lia.
  - rewrite E3. exact R.
  - rewrite HL. exact Hfull.
  - rewrite E2, Hw, P, HL, Hfrom, idx_idx by lia.
    destruct (28 <=? S (length B))%nat eqn:E6.
    + rewrite idx_idx by lia. f_equal. lia.
    + f_equal. lia.
  - rewrite HL. intros j Hj. rewrite E1, Hfrom.
    assert (Hend : pends 0 (B ++ [(f, x)]) = pends 0 B ++ [(f, plen (B ++ [(f, x)]))]).
    { rewrite pends_app, plen_app. cbn [pends]. do 3 f_equal. unfold plen at 3, pdata. cbn [map concat snd].
      rewrite app_nil_r. reflexivity. }
    rewrite Hend.
    destruct (28 <=? S (length B))%nat eqn:E6.
    + rewrite Nat.min_r in * by lia. rewrite idx_idx by lia.
      destruct (Nat.eq_dec j 26) as [->|Hj2].
      * replace (1 + 26)%nat with 27%nat by lia. rewrite <- P. rewrite nth_set_eq' by lia.
        rewrite app_nth2 by (rewrite pends_length; lia). rewrite pends_length.
        replace (S (length B) - 27 + 26 - length B)%nat with O by lia. reflexivity.
      * rewrite nth_set_neq'.
        2:{ rewrite P. intros C. apply idx_inj in C; lia. }
        rewrite app_nth1 by (rewrite pends_length; lia). rewrite N by lia. f_equal. lia.
    + rewrite Nat.min_l in * by lia. rewrite Nat.sub_diag in *.
      replace (S (length B) - S (length B) + j)%nat with j by lia.
      destruct (Nat.eq_dec j (length B)) as [->|Hj2].
      * rewrite <- P, nth_set_eq' by lia. rewrite app_nth2 by (rewrite pends_length; lia).
        rewrite pends_length, Nat.sub_diag. reflexivity.
      * rewrite nth_set_neq'.
        2:{ rewrite P. intros C. apply idx_inj in C; lia. }
        rewrite app_nth1 by (rewrite pends_length; lia). rewrite N by lia. reflexivity.
Qed.

Lemma RI_nil b : length (bf_ring b) = 28%nat -> (bf_w b < 28)%nat -> bf_r b = bf_w b ->
  bf_full b = false -> RI b [].
Proof.
  intros H1 H2 H3 H4. constructor.
  - exact H1.
  - exact H2.
  - rewrite H3. exact H2.
  - exact H4.
  - unfold from. rewrite H4, H3. cbn [length Nat.min]. symmetry. apply idx_0. exact H2.
  - cbn [length Nat.min]. intros j Hj. lia.
Qed.

(* ---------- reading the queue ---------- *)

Fixpoint calls_of (p : nat) (es : list (frame * nat)) (data : list Z) : list call :=
  match es with
  | [] => []
  | (f, np) :: es =>
      (if (0 <? p)%nat then [CStart f] else []) ++
      CWrite (firstn (np - p) (skipn p data)) :: calls_of np es data
  end.

Lemma ring_reads ring data es : forall n w r p,
  (length es < n)%nat -> (n <= 28)%nat -> (r < 28)%nat -> w = idx r (length es) ->
  (forall j, (j < length es)%nat -> nth (idx r j) ring (frame0, O) = nth j es (frame0, O)) ->
  ring_out n ring w r p data = calls_of p es data.
Proof.
  induction es as [|[f np] es IH]; intros n w r p Hn Hn2 Hr Hw HE.
  - cbn [length] in Hw. rewrite idx_0 in Hw by exact Hr. subst w. destruct n; cbn [ring_out]; [reflexivity|].
    rewrite Nat.eqb_refl. reflexivity.
  - destruct n as [|n]; [lia|]. cbn [length] in *. cbn [ring_out calls_of].
    assert (Hne : (w =? r)%nat = false).
    { apply Nat.eqb_neq. intros C. subst w. rewrite <- (idx_0 r Hr) in C at 2. apply idx_inj in C; lia. }
    rewrite Hne. pose proof (HE O ltac:(lia)) as H0. rewrite idx_0 in H0 by exact Hr. cbn [nth] in H0.
    rewrite H0.
    rewrite (IH n w (inc r) np); [reflexivity|lia|lia| | |].
    + rewrite inc_idx by exact Hr. apply idx_lt; lia.
    + rewrite inc_idx by exact Hr. rewrite idx_idx by lia. exact Hw.
    + intros j Hj. rewrite inc_idx by exact Hr. rewrite idx_idx by lia. exact (HE (S j) ltac:(lia)).
Qed.

Lemma emit_pieces i last data B : forall p rest, Forall pfull B -> (0 < p)%nat ->
  skipn p data = pdata B ++ rest ->
  emit i false (calls_of p (pends p B) data ++ [CFlush last]) = sub_ops i B ++ [OFlush i last].
Proof.
  induction B as [|[f x] B IH]; intros p rest HF Hp HD; [reflexivity|].
  inversion HF as [|? ? Hx HF']; subst. cbn [snd] in Hx. cbn [pends calls_of].
  replace (0 <? p)%nat with true by lia. cbn [app emit sub_ops flat_map fst snd].
  replace (p + length x - p)%nat with (length x) by lia. rewrite HD.
  unfold pdata at 1. cbn [map concat snd]. rewrite <- app_assoc, firstn_app_exact.
  f_equal. f_equal. apply (IH (p + length x)%nat rest HF' ltac:(lia)).
  rewrite <- skipn_skipn_add, HD. unfold pdata at 1. cbn [map concat snd]. rewrite <- app_assoc, skipn_app_exact. reflexivity.
Qed.

Lemma nth_skipn' A (l : list A) k j d : nth j (skipn k l) d = nth (k + j) l d.
Proof. revert l. induction k as [|k IH]; intros [|y l]; cbn; auto. destruct j; reflexivity. Qed.

(* The frames that are put together at the beginning, and the others. *)
Lemma force_pieces b B x i last : RI b B -> B <> [] -> Forall pfull B -> bf_data b = pdata B ++ x ->
  exists B1 B2, B = B1 ++ B2 /\ B1 <> [] /\ (length B1 = 1 \/ 26 <= length B2)%nat /\
    emit i true (CStart (bf_cur b) :: ring_out ring_size (bf_ring b) (bf_w b) (from b) O (bf_data b) ++
                 [CFlush last]) =
    group i (bf_cur b) [pdata B1] B2 last.
Proof.
  intros H HB HF HD. pose proof (from_lt _ _ H) as Hfr. destruct H as [L W R FU P N].
  set (q := Nat.min (length B) 27) in *.
  assert (Hlen : (0 < length B)%nat) by (destruct B; [congruence|cbn; lia]).
  set (k := (length B - q)%nat).
  exists (firstn (S k) B), (skipn (S k) B).
  assert (EB : firstn (S k) B ++ skipn (S k) B = B) by apply firstn_skipn.
  assert (EL1 : length (firstn (S k) B) = S k) by (rewrite firstn_length; lia).
  assert (EL2 : length (skipn (S k) B) = (q - 1)%nat) by (rewrite skipn_length; lia).
  split; [symmetry; exact EB|].
  split. { intros C. rewrite C in EL1. cbn in EL1. lia. }
  split. { rewrite EL1, EL2. lia. }
  set (es := skipn k (pends 0 B)).
  assert (Hes : length es = q) by (subst es; rewrite skipn_length, pends_length; lia).
  rewrite (ring_reads (bf_ring b) (bf_data b) es ring_size (bf_w b) (from b) O);
    [|unfold ring_size; lia|unfold ring_size; lia|exact Hfr|rewrite Hes; exact P|].
  2:{ intros j Hj. rewrite Hes in Hj. rewrite (N j Hj). subst es. rewrite nth_skipn'. reflexivity. }
  set (B1 := firstn (S k) B) in *. set (B2 := skipn (S k) B) in *.
  assert (Ees : exists f, es = (f, plen B1) :: pends (plen B1) B2).
  { assert (HB1 : exists Ba f y, B1 = Ba ++ [(f, y)] /\ length Ba = k).
    { destruct (exists_last (l := B1)) as (Ba & [f y] & E); [intros C; rewrite C in EL1; cbn in EL1; lia|].
      exists Ba, f, y. split; [exact E|]. rewrite E, app_length in EL1. cbn in EL1. lia. }
    destruct HB1 as (Ba & f & y & E1 & ELa). exists f. subst es.
    rewrite <- EB, pends_app, E1, pends_app, <- app_assoc. cbn [pends app Nat.add].
    rewrite <- ELa, <- (pends_length Ba 0), skipn_app_exact.
    rewrite plen_app, plen_cons. replace (plen Ba + (length y + plen []))%nat with (plen Ba + length y)%nat by (cbn; lia).
    reflexivity. }
  destruct Ees as (f & Ees). rewrite Ees. cbn [calls_of]. replace (0 <? 0)%nat with false by reflexivity.
  cbn [app emit]. unfold group. cbn [map app]. f_equal.
  rewrite Nat.sub_0_r. cbn [skipn]. rewrite HD, <- EB, pdata_app, <- app_assoc. unfold plen at 1.
  rewrite firstn_app_exact. f_equal.
  apply (emit_pieces i last _ B2 (plen B1) x).
  - rewrite <- EB in HF. apply Forall_app in HF. tauto.
  - assert (HF1 : Forall pfull B1) by (rewrite <- EB in HF; apply Forall_app in HF; tauto).
    clear - HF1 EL1. destruct HF1 as [|[f y] B1 Hy HF1]; [cbn in EL1; lia|]. rewrite plen_cons.
    destruct y; [cbn in Hy; congruence|cbn; lia].
  - rewrite (app_assoc (pdata B1)). unfold plen. rewrite <- app_assoc, skipn_app_exact. reflexivity.
Qed.
