(* Proofs about the MPEG-TS muxer, part 2: the calls for some frames that become one
   PES packet; the same in the simulation. *)

From Coq Require Import ZArith List Bool Lia ZifyBool.
From Verif Require Import Lists TsModel TsSpec MuxModel MuxSpec MuxProofs.
Import ListNotations.
Open Scope Z_scope.

Definition sub_ops (i : nat) (ps : list (frame * list Z)) : list op :=
  flat_map (fun p => [OSub i (fst p); OWrite i (snd p)]) ps.

Definition group (i : nat) (f : frame) (W : list (list Z)) (ps : list (frame * list Z)) (last : bool)
  : list op :=
  OStart i f :: map (OWrite i) W ++ sub_ops i ps ++ [OFlush i last].

Definition all_on (i : nat) (ops : list op) : Prop := Forall (fun o => op_strm o = i) ops.

Lemma on_app i a b : all_on i a -> all_on i b -> all_on i (a ++ b).
Proof. intros. apply Forall_app. auto. Qed.

Lemma on_writes i W : all_on i (map (OWrite i) W).
Proof. apply Forall_forall. intros o H. apply in_map_iff in H. destruct H as (b & <- & _). reflexivity. Qed.

Lemma on_subs i ps : all_on i (sub_ops i ps).
Proof.
  induction ps as [|p ps IH]; [constructor|]. cbn [sub_ops flat_map app].
  constructor; [reflexivity|]. constructor; [reflexivity|]. exact IH.
Qed.

Lemma on_group i f W ps last : all_on i (group i f W ps last).
Proof.
  constructor; [reflexivity|]. apply on_app; [apply on_writes|]. apply on_app; [apply on_subs|].
  constructor; [reflexivity|constructor].
Qed.

(* ---------- phases ---------- *)

Fixpoint local (c : conf) (t : strm) (p : phase) (ops : list op) : option phase :=
  match ops with
  | [] => Some p
  | o :: ops => match next_phase c t p o with Some p => local c t p ops | None => None end
  end.

Lemma local_app c t a : forall p b, local c t p (a ++ b) =
  match local c t p a with Some p => local c t p b | None => None end.
Proof.
  induction a as [|o a IH]; intros p b; [reflexivity|]. cbn [app local].
  destruct (next_phase c t p o); [apply IH|reflexivity].
Qed.

Lemma set_twice A (l : list A) : forall i x y, set_nth (set_nth l i x) i y = set_nth l i y.
Proof. induction l as [|a l IH]; intros [|i] x y; cbn; auto. rewrite IH. reflexivity. Qed.

Lemma nth_lt A (l : list A) i x : nth_error l i = Some x -> (i < length l)%nat.
Proof. intros H. apply nth_error_Some. congruence. Qed.

Lemma tracks_local c i t ops : nth_error (c_strms c) i = Some t ->
  forall ps p p', nth_error ps i = Some p -> all_on i ops -> local c t p ops = Some p' ->
  (c_inter c = true \/ forall j q, j <> i -> nth_error ps j = Some q -> is_in q = false) ->
  tracks c ps ops = Some (set_nth ps i p').
Proof.
  intros Ht. induction ops as [|o ops IH]; intros ps p p' Hp HO HL HA; cbn [local] in HL.
  - injection HL as <-. cbn [tracks]. rewrite (set_nth_same _ _ _ Hp). reflexivity.
  - inversion HO as [|? ? Ho HO']; subst. cbn [tracks]. unfold track. rewrite Ht, Hp.
    destruct (next_phase c t p o) as [p1|] eqn:E1; [|discriminate].
    assert (EA : alone c ps o = true).
    { destruct o as [j f|j f|j b|j last]; try reflexivity. cbn [op_strm] in *. cbn [alone].
      destruct HA as [->|HA]; [reflexivity|]. destruct (existsb is_in ps) eqn:Ee; [|destruct (c_inter c); reflexivity].
      exfalso. apply existsb_exists in Ee. destruct Ee as (q & Hq & Hi).
      apply In_nth_error in Hq. destruct Hq as (m & Hm).
      destruct (Nat.eq_dec m j) as [->|Hne].
      - assert (q = p) by congruence. subst q. destruct p; cbn in Hi; try discriminate. 
      - rewrite (HA _ _ Hne Hm) in Hi. discriminate. }
    rewrite EA.
    rewrite (IH (set_nth ps (op_strm o) p1) p1 p'); [rewrite set_twice; reflexivity| |exact HO'|exact HL|].
    + apply nth_error_set_nth_eq. exact (nth_lt _ _ _ _ Hp).
    + destruct HA as [HA|HA]; [left; exact HA|right]. intros j q Hj Hq.
      rewrite nth_error_set_nth_neq in Hq by congruence. exact (HA _ _ Hj Hq).
Qed.

Definition fits (c : conf) (t : strm) (n : Z) : Prop :=
  c_align c = true \/ is_video t = true \/ n <= 65343.

Lemma fits_less c t n m : fits c t n -> m <= n -> fits c t m.
Proof. unfold fits. intros [H|[H|H]] L; auto. right. right. lia. Qed.

Lemma fits_b c t n : fits c t n -> c_align c || is_video t || (n <=? 65343) = true.
Proof. unfold fits. destruct (c_align c), (is_video t); cbn; try reflexivity. intros [H|[H|H]]; try discriminate. lia. Qed.

Lemma local_writes c t i W : W <> [] -> Forall full W -> forall b n,
  fits c t (n + zlen (concat W)) ->
  local c t (Inside b n) (map (OWrite i) W) = Some (Inside false (n + zlen (concat W))).
Proof.
  intros HW HF. induction HF as [|x W Hx HF IH]; [congruence|]. intros b n Hn.
  cbn [map local concat next_phase] in *. rewrite zlen_app in *.
  pose proof (zlen_pos x Hx). pose proof (zlen_ge (concat W)).
  rewrite (fits_b c t (n + zlen x)) by (apply (fits_less _ _ _ _ Hn); lia).
  replace (0 <? zlen x) with true by lia. cbn [andb].
  destruct W as [|y W].
  - cbn. f_equal. f_equal. lia.
  - rewrite IH; [f_equal; f_equal; lia|discriminate|]. rewrite <- Z.add_assoc. exact Hn.
Qed.

Definition pdata (ps : list (frame * list Z)) : list Z := concat (map snd ps).

Lemma local_subs c t i ps : Forall (fun p => snd p <> []) ps -> forall n,
  fits c t (n + zlen (pdata ps)) ->
  local c t (Inside false n) (sub_ops i ps) = Some (Inside false (n + zlen (pdata ps))).
Proof.
  unfold pdata. intros HF. induction HF as [|[f x] ps Hx HF IH]; intros n Hn.
  - cbn. f_equal. f_equal. lia.
  - cbn [sub_ops flat_map app map concat local next_phase fst snd] in *. rewrite zlen_app in *.
    pose proof (zlen_pos x Hx). pose proof (zlen_ge (concat (map snd ps))).
    rewrite (fits_b c t (n + zlen x)) by (apply (fits_less _ _ _ _ Hn); lia).
    replace (0 <? zlen x) with true by lia. cbn [andb].
    change (flat_map (fun p : frame * list Z => [OSub i (fst p); OWrite i (snd p)]) ps) with (sub_ops i ps).
    rewrite IH; [f_equal; f_equal; lia|]. rewrite <- Z.add_assoc. exact Hn.
Qed.

Definition can_start (c : conf) (t : strm) (h : Z) : Prop :=
  (c_align c = true \/ is_other t = true \/ 1 <= h) /\ 0 <= h.

Lemma start_b c t h : can_start c t h ->
  (c_align c || is_other t || (1 <=? h)) && (0 <=? h) = true.
Proof.
  unfold can_start. intros [H H0]. replace (0 <=? h) with true by lia. rewrite andb_true_r.
  destruct H as [->|[->|H]]; [reflexivity|apply orb_true_iff; left; apply orb_true_r|].
  replace (1 <=? h) with true by lia. apply orb_true_r.
Qed.

Definition ready (p : phase) : Prop := p = New \/ p = Between.

Lemma local_group c t i f W ps last p : ready p -> can_start c t (f_header f) ->
  W <> [] -> Forall full W -> Forall (fun p => snd p <> []) ps ->
  fits c t (zlen (concat W) + zlen (pdata ps)) ->
  (last = true \/ c_align c = true \/ is_other t = false) ->
  local c t p (group i f W ps last) = Some (if last then Done else Between).
Proof.
  intros HP HS HW HF HG HN HL. unfold group. cbn [local].
  assert (E : next_phase c t p (OStart i f) = Some (Inside true 0)).
  { destruct HP as [->| ->]; cbn [next_phase]; rewrite (start_b _ _ _ HS); reflexivity. }
  rewrite E, local_app. pose proof (zlen_ge (pdata ps)).
  rewrite (local_writes c t i W HW HF true 0) by (apply (fits_less _ _ _ _ HN); lia).
  rewrite local_app, local_subs; [|exact HG|exact HN]. cbn [local next_phase].
  assert (E2 : last || c_align c || negb (is_other t) = true).
  { destruct HL as [->|[->| ->]]; [reflexivity|apply orb_true_iff; left; apply orb_true_r|apply orb_true_r]. }
  rewrite E2. reflexivity.
Qed.

(* ---------- what was pushed ---------- *)

Definition push (i : nat) (h : hist) (ops : list op) : hist := fold_left (hist_step i) ops h.

Lemma push_app i h a b : push i h (a ++ b) = push i (push i h a) b.
Proof. apply fold_left_app. Qed.

Lemma pushed_push i a b : pushed i (a ++ b) = push i (pushed i a) b.
Proof. apply fold_left_app. Qed.

Lemma push_other i j h ops : all_on j ops -> j <> i -> push i h ops = h.
Proof.
  intros HO Hj. revert h. induction HO as [|o ops Ho HO IH]; intros h; [reflexivity|].
  cbn [push fold_left]. change (push i (hist_step i h o) ops = h). rewrite IH.
  apply Nat.eqb_neq in Hj. destruct o; cbn [op_strm] in Ho; subst; cbn [hist_step]; rewrite ?Hj; reflexivity.
Qed.

Lemma push_writes i W : forall h,
  push i h (map (OWrite i) W) = Hist (h_data h ++ concat W) (h_marks h) (h_frames h).
Proof.
  induction W as [|x W IH]; intros h.
  - cbn. rewrite app_nil_r. destruct h; reflexivity.
  - cbn [map push fold_left]. change (push i (hist_step i h (OWrite i x)) (map (OWrite i) W) =
      Hist (h_data h ++ concat (x :: W)) (h_marks h) (h_frames h)). rewrite IH. cbn [hist_step].
    rewrite Nat.eqb_refl. cbn [h_data h_marks h_frames concat]. rewrite app_assoc. reflexivity.
Qed.

(* Where frames begin. *)
Fixpoint pbegins (off : Z) (ps : list (frame * list Z)) : list (Z * frame) :=
  match ps with [] => [] | (f, x) :: ps => (off, f) :: pbegins (off + zlen x) ps end.

Definition mark (x : Z * frame) : Z * Z := (fst x, f_pts (snd x)).
Definition pmarks (off : Z) (ps : list (frame * list Z)) : list (Z * Z) := map mark (pbegins off ps).

Lemma pbegins_app a : forall off b, pbegins off (a ++ b) = pbegins off a ++ pbegins (off + zlen (pdata a)) b.
Proof.
  unfold pdata. induction a as [|[f x] a IH]; intros off b; cbn [app pbegins map concat snd].
  - cbn. f_equal. lia.
  - rewrite IH, zlen_app. do 3 f_equal. lia.
Qed.

Lemma pmarks_app a off b : pmarks off (a ++ b) = pmarks off a ++ pmarks (off + zlen (pdata a)) b.
Proof. unfold pmarks. rewrite pbegins_app, map_app. reflexivity. Qed.

Lemma pdata_app a b : pdata (a ++ b) = pdata a ++ pdata b.
Proof. unfold pdata. rewrite map_app, concat_app. reflexivity. Qed.

Lemma push_subs i ps : forall h, push i h (sub_ops i ps) =
  Hist (h_data h ++ pdata ps) (h_marks h ++ pmarks (zlen (h_data h)) ps) (h_frames h).
Proof.
  unfold pdata, pmarks. induction ps as [|[f x] ps IH]; intros h.
  - cbn. rewrite !app_nil_r. destruct h; reflexivity.
  - cbn [sub_ops flat_map app]. change (flat_map (fun p : frame * list Z => [OSub i (fst p); OWrite i (snd p)]) ps) with (sub_ops i ps).
    change (push i h (OSub i (fst (f, x)) :: OWrite i (snd (f, x)) :: sub_ops i ps))
      with (push i (hist_step i (hist_step i h (OSub i f)) (OWrite i x)) (sub_ops i ps)).
    rewrite IH. cbn [hist_step]. rewrite Nat.eqb_refl. cbn [h_data h_marks h_frames map concat snd pbegins].
    rewrite <- !app_assoc, zlen_app. cbn [app]. reflexivity.
Qed.

Lemma push_group i f W ps last h : push i h (group i f W ps last) =
  Hist (h_data h ++ concat W ++ pdata ps)
    (h_marks h ++ (zlen (h_data h), f_pts f) :: pmarks (zlen (h_data h) + zlen (concat W)) ps)
    (h_frames h ++ [(zlen (h_data h), f)]).
Proof.
  unfold group. change (push i h (OStart i f :: map (OWrite i) W ++ sub_ops i ps ++ [OFlush i last]))
    with (push i (hist_step i h (OStart i f)) (map (OWrite i) W ++ sub_ops i ps ++ [OFlush i last])).
  rewrite push_app, push_writes, push_app, push_subs. cbn [push fold_left hist_step].
  rewrite Nat.eqb_refl. cbn [h_data h_marks h_frames]. rewrite zlen_app, <- !app_assoc. reflexivity.
Qed.

(* ---------- the simulation ---------- *)

Definition okz (z : sst) : Prop := Forall (fun m => 0 <= m_temp m) (z_sims z).

Definition spos (o : sop) : Prop := match o with SWrite _ n => 0 <= n | _ => True end.

Lemma okz_set z i m q : okz z -> 0 <= m_temp m -> okz (Sst (set_nth (z_sims z) i m) q).
Proof.
  unfold okz. cbn [z_sims]. intros H Hm. revert i. induction H as [|a l Ha H IH]; intros [|i]; cbn; constructor; auto.
Qed.

Lemma okz_son c z i g : okz z ->
  (forall t m q, 0 <= m_temp m -> 0 <= m_temp (fst (g t m q))) -> okz (son c z i g).
Proof.
  intros H Hg. unfold son. destruct (nth_error (c_strms c) i) as [t|]; [|exact H].
  destruct (nth_error (z_sims z) i) as [m|] eqn:Em; [|exact H].
  apply okz_set; [exact H|]. apply Hg. unfold okz in H. rewrite Forall_forall in H. apply H.
  eapply nth_error_In. exact Em.
Qed.

Lemma stuff_pos i m q : 0 <= m_temp m -> 0 <= m_temp (fst (sim_stuff i m q)).
Proof. unfold sim_stuff. destruct (0 <? m_temp m); cbn; lia. Qed.

Lemma okz_close c z i : okz z -> okz (sim_close_other c z i).
Proof.
  intros H. unfold sim_close_other. destruct (q_who (z_q z)) as [j|]; [|exact H].
  destruct (negb (c_inter c) && negb (j =? i)%nat); [|exact H].
  apply okz_son; [exact H|]. intros. apply stuff_pos. assumption.
Qed.

Lemma okz_sstep c z o : okz z -> spos o -> okz (sstep c z o).
Proof.
  intros H HP. destruct o as [i f|i n|i last]; cbn [sstep spos] in *.
  - apply okz_son; [apply okz_close; exact H|]. intros t m q Hm. unfold sim_start.
    destruct (184 <=? m_temp m + Z.of_nat (hsize t)) eqn:E; cbn [fst m_temp]; lia.
  - apply okz_son; [exact H|]. intros t m q Hm. unfold sim_write.
    pose proof (Z.div_mod (n + m_temp m) 184 ltac:(lia)). pose proof (Z.mod_pos_bound (n + m_temp m) 184 ltac:(lia)).
    destruct ((n + m_temp m) / 184 <=? 0); cbn [fst m_temp]; lia.
  - apply okz_son; [exact H|]. intros t m q Hm. unfold sim_flush.
    destruct (c_align c || (m_temp m =? 0) || (m_fl m <? m_hdr m) || last).
    + pose proof (stuff_pos i m q Hm). destruct (sim_stuff i m q) as [m1 q1]. destruct last; cbn in *; lia.
    + destruct last; cbn; lia.
Qed.

Lemma okz_ssteps c l : forall z, okz z -> Forall spos l -> okz (fold_left (sstep c) l z).
Proof.
  induction l as [|o l IH]; intros z H HP; [exact H|]. inversion HP; subst. cbn [fold_left].
  apply IH; [apply okz_sstep; assumption|assumption].
Qed.

(* These calls and those of the simulation have the same effect. *)
Definition eqv (c : conf) (ops : list op) (sops : list sop) : Prop :=
  Forall spos sops /\ forall z, okz z -> sim_run c z ops = fold_left (sstep c) sops z.

Lemma eqv_nil c : eqv c [] [].
Proof. split; [constructor|reflexivity]. Qed.

Lemma eqv_app c a b x y : eqv c a x -> eqv c b y -> eqv c (a ++ b) (x ++ y).
Proof.
  intros [P1 H1] [P2 H2]. split; [apply Forall_app; auto|]. intros z Hz. unfold sim_run in *.
  rewrite !fold_left_app, H1 by exact Hz. apply H2. apply okz_ssteps; assumption.
Qed.

Lemma eqv_start c i f f' : f_header f = f_header f' -> eqv c [OStart i f] [SStart i f'].
Proof.
  intros E. split; [repeat constructor|]. intros z Hz. cbn [sim_run fold_left sim_step sstep].
  unfold son, sim_start. rewrite E. reflexivity.
Qed.

Lemma eqv_sub c i f : eqv c [OSub i f] [].
Proof. split; [constructor|reflexivity]. Qed.

Lemma eqv_flush c i last : eqv c [OFlush i last] [SFlush i last].
Proof. split; [repeat constructor|]. reflexivity. Qed.

Lemma eqv_write c i b : eqv c [OWrite i b] [SWrite i (zlen b)].
Proof. split; [constructor; [apply zlen_ge|constructor]|]. reflexivity. Qed.

Lemma write_merge i a b m q : 0 <= a -> 0 <= b -> 0 <= m_temp m ->
  (let r := sim_write i a m q in sim_write i b (fst r) (snd r)) = sim_write i (a + b) m q.
Proof.
  intros Ha Hb Hm. unfold sim_write. set (x := m_temp m) in *. 
  pose proof (Z.div_mod (a + x) 184 ltac:(lia)) as D1. pose proof (Z.mod_pos_bound (a + x) 184 ltac:(lia)) as B1.
  assert (P1 : 0 <= (a + x) / 184) by (apply Z.div_pos; lia).
  set (n := (a + x) / 184) in *.
  assert (EA : (a + b + x) / 184 = n + (b + (a + x - n * 184)) / 184).
  { replace (a + b + x) with (b + (a + x - n * 184) + n * 184) by lia. rewrite Z.div_add by lia. lia. }
  assert (P2 : 0 <= (b + (a + x - n * 184)) / 184) by (apply Z.div_pos; lia).
  rewrite EA. destruct (n <=? 0) eqn:E1; cbn [fst snd m_temp m_fl m_left m_hdr m_cc q_count].
  - assert (n = 0) by (clear - E1 P1; lia). clearbody n. subst n. cbn [Z.mul] in *. rewrite !Z.sub_0_r in *.
    set (k := (b + (a + x)) / 184) in *. cbn [Z.add].
    destruct (k <=? 0) eqn:E2; f_equal; f_equal; try lia.
  - set (k := (b + (a + x - n * 184)) / 184) in *.
    destruct (k <=? 0) eqn:E2.
    + assert (k = 0) by (clear - E2 P2; lia). replace (n + k <=? 0) with false by (clear - E1 P2; lia).
      f_equal; f_equal; lia.
    + replace (n + k <=? 0) with false by (clear - E1 P2; lia). f_equal; f_equal; lia.
Qed.

Lemma sstep_merge c z i a b : okz z -> 0 <= a -> 0 <= b ->
  sstep c (sstep c z (SWrite i a)) (SWrite i b) = sstep c z (SWrite i (a + b)).
Proof.
  intros Hz Ha Hb. cbn [sstep]. unfold son.
  destruct (nth_error (c_strms c) i) as [t|] eqn:Et; [|reflexivity].
  destruct (nth_error (z_sims z) i) as [m|] eqn:Em; [|rewrite Em; reflexivity].
  cbn [z_sims z_q].
  rewrite nth_error_set_nth_eq by exact (nth_lt _ _ _ _ Em).
  assert (Hm : 0 <= m_temp m).
  { unfold okz in Hz. rewrite Forall_forall in Hz. apply Hz. eapply nth_error_In. exact Em. }
  pose proof (write_merge i a b m (z_q z) Ha Hb Hm) as E. cbv zeta in E. rewrite E, set_twice. reflexivity.
Qed.

Lemma eqv_trans c a x y : eqv c a x -> Forall spos y ->
  (forall z, okz z -> fold_left (sstep c) x z = fold_left (sstep c) y z) -> eqv c a y.
Proof. intros [P1 H1] P2 H. split; [exact P2|]. intros z Hz. rewrite H1 by exact Hz. exact (H z Hz). Qed.

Lemma eqv_writes c i W : W <> [] -> eqv c (map (OWrite i) W) [SWrite i (zlen (concat W))].
Proof.
  induction W as [|x W IH]; [congruence|]. intros _. destruct W as [|y W].
  - cbn [map concat]. rewrite app_nil_r. apply eqv_write.
  - specialize (IH ltac:(discriminate)). pose proof (eqv_app _ _ _ _ _ (eqv_write c i x) IH) as H.
    cbn [app] in H. cbn [map concat] in *. rewrite zlen_app. apply (eqv_trans _ _ _ _ H).
    + constructor; [|constructor]. cbn. pose proof (zlen_ge x). pose proof (zlen_ge (y ++ concat W)). lia.
    + intros z Hz. cbn [fold_left]. apply sstep_merge; [exact Hz|apply zlen_ge|apply zlen_ge].
Qed.

Lemma eqv_writes_subs c i ps : forall W, W <> [] ->
  eqv c (map (OWrite i) W ++ sub_ops i ps) [SWrite i (zlen (concat W) + zlen (pdata ps))].
Proof.
  unfold pdata. induction ps as [|[f x] ps IH]; intros W HW.
  - cbn [sub_ops flat_map map concat]. rewrite app_nil_r, zlen_nil, Z.add_0_r. apply eqv_writes. exact HW.
  - cbn [sub_ops flat_map]. change (flat_map (fun p : frame * list Z => [OSub i (fst p); OWrite i (snd p)]) ps) with (sub_ops i ps).
    pose proof (eqv_app _ _ _ _ _ (eqv_writes c i W HW)
      (eqv_app _ _ _ _ _ (eqv_sub c i f) (IH [x] ltac:(discriminate)))) as H.
    cbn [app map] in H. cbn [app fst snd map concat] in *. rewrite app_nil_r in H. rewrite zlen_app.
    apply (eqv_trans _ _ _ _ H).
    + constructor; [|constructor]. cbn. pose proof (zlen_ge x). pose proof (zlen_ge (concat W)).
      pose proof (zlen_ge (concat (map snd ps))). lia.
    + intros z Hz. cbn [fold_left]. apply sstep_merge; [exact Hz|apply zlen_ge|].
      pose proof (zlen_ge x). pose proof (zlen_ge (concat (map snd ps))). lia.
Qed.

Lemma eqv_group c i f f' W ps last : f_header f = f_header f' -> W <> [] ->
  eqv c (group i f W ps last)
    [SStart i f'; SWrite i (zlen (concat W) + zlen (pdata ps)); SFlush i last].
Proof.
  intros E HW. unfold group.
  change (OStart i f :: map (OWrite i) W ++ sub_ops i ps ++ [OFlush i last])
    with ([OStart i f] ++ (map (OWrite i) W ++ sub_ops i ps ++ [OFlush i last])).
  rewrite (app_assoc (map (OWrite i) W)).
  change [SStart i f'; SWrite i (zlen (concat W) + zlen (pdata ps)); SFlush i last]
    with ([SStart i f'] ++ ([SWrite i (zlen (concat W) + zlen (pdata ps))] ++ [SFlush i last])).
  apply eqv_app; [apply eqv_start; exact E|]. apply eqv_app; [apply eqv_writes_subs; exact HW|apply eqv_flush].
Qed.
