(* Proofs about the ack maps. *)
From Coq Require Import List ZArith Bool Lia.
From Coq Require Import ZifyBool ZifyNat.
From Verif Require Import AckModel AckSpec.
Import ListNotations.
Local Open Scope Z_scope.

Lemma zsum_app a b : zsum (a ++ b) = zsum a + zsum b.
Proof. unfold zsum. induction a as [|x a IH]; cbn; [reflexivity|]. rewrite IH. lia. Qed.

Lemma zsum_repeat v n : zsum (repeat v n) = Z.of_nat n * v.
Proof. unfold zsum. induction n as [|n IH]; [cbn; lia|]. cbn [repeat fold_right]. rewrite IH. lia. Qed.

Lemma zsum_repeat_z v z : 0 <= z -> zsum (repeat v (Z.to_nat z)) = z * v.
Proof. intros H. rewrite zsum_repeat, Z2Nat.id by exact H. reflexivity. Qed.

Lemma zsum_nonneg l : Forall (Z.le 0) l -> 0 <= zsum l.
Proof. unfold zsum. induction 1; cbn; lia. Qed.

Lemma firstn_repeat {A} (v : A) n m : (n <= m)%nat -> firstn n (repeat v m) = repeat v n.
Proof. revert m; induction n as [|n IH]; intros [|m] H; cbn; try reflexivity; try lia. rewrite IH by lia. reflexivity. Qed.

Lemma skipn_repeat {A} (v : A) n m : (n <= m)%nat -> skipn n (repeat v m) = repeat v (m - n).
Proof. revert m; induction n as [|n IH]; intros [|m] H; cbn; try reflexivity; try lia. apply IH; lia. Qed.

Lemma skipn_skipn' {A} a b (l : list A) : skipn a (skipn b l) = skipn (b + a) l.
Proof. revert l; induction b as [|b IH]; intros l; [reflexivity|]. destruct l; [rewrite !skipn_nil; reflexivity|]. cbn. apply IH. Qed.

Lemma firstn_rep_all {A} (v : A) n m : (m <= n)%nat -> firstn n (repeat v m) = repeat v m.
Proof. intros H. apply firstn_all2. rewrite repeat_length. exact H. Qed.
Lemma skipn_rep_all {A} (v : A) n m : (m <= n)%nat -> skipn n (repeat v m) = [].
Proof. intros H. apply skipn_all2. rewrite repeat_length. exact H. Qed.

Lemma w64_id z : 0 <= z < 2 ^ 64 -> w64 z = z.
Proof. apply Z.mod_small. Qed.
Lemma s32_id z : - 2 ^ 31 <= z < 2 ^ 31 -> s32 z = z.
Proof. intros H. unfold s32. rewrite Z.mod_small by lia. lia. Qed.

Definition expand (q : list run) : list Z := flat_map (fun r => repeat (fst r) (Z.to_nat (snd r))) q.
Definition count_ok (q : list run) : Prop := Forall (fun r => 0 <= snd r) q.

Lemma expand_app a b : expand (a ++ b) = expand a ++ expand b.
Proof. unfold expand. apply flat_map_app. Qed.

Lemma rev_cons_snoc {A} (q : list A) x r : rev q = x :: r -> q = rev r ++ [x].
Proof. intros E. apply (f_equal (@rev A)) in E. rewrite rev_involutive in E. exact E. Qed.

Lemma repeat_snoc {A} (v : A) n : repeat v (S n) = repeat v n ++ [v].
Proof. induction n as [|n IH]; [reflexivity|]. change (repeat v (S (S n))) with (v :: repeat v (S n)). rewrite IH at 1. reflexivity. Qed.

Lemma push_expand q dur : count_ok q -> expand (push_dur q dur) = expand q ++ [dur].
Proof.
  intros H. unfold push_dur. destruct (rev q) as [|[v k] r] eqn:E.
  - apply (f_equal (@rev run)) in E. rewrite rev_involutive in E. subst q. reflexivity.
  - apply rev_cons_snoc in E. subst q. destruct (Z.eqb_spec v dur) as [->|Hne].
    + rewrite !expand_app. cbn [expand flat_map fst snd]. rewrite !app_nil_r, <- app_assoc. f_equal.
      unfold count_ok in H. apply Forall_app in H. destruct H as [_ H]. inversion H as [|? ? Hk _]. cbn in Hk.
      replace (Z.to_nat (k + 1)) with (S (Z.to_nat k)) by lia. apply repeat_snoc.
    + rewrite !expand_app. reflexivity.
Qed.

Lemma push_forall (P : run -> Prop) q dur : Forall P q -> P (dur, 1) ->
  (forall v k, P (v, k) -> P (v, k + 1)) -> Forall P (push_dur q dur).
Proof.
  intros H H1 H2. unfold push_dur. destruct (rev q) as [|[v k] r] eqn:E; [auto|].
  apply rev_cons_snoc in E. subst q. apply Forall_app in H. destruct H as [Ha Hb]. inversion Hb as [|? ? Hc _].
  destruct (v =? dur).
  - apply Forall_app. split; [exact Ha|]. auto.
  - apply Forall_app. split; [apply Forall_app; split; auto|auto].
Qed.

Lemma push_front q dur v k r : q <> [] -> push_dur q dur = (v, k) :: r ->
  exists k' r', q = (v, k') :: r'.
Proof.
  intros Hne. unfold push_dur. destruct (rev q) as [|[v' k'] r'] eqn:E.
  - apply (f_equal (@rev run)) in E. rewrite rev_involutive in E. contradiction.
  - apply rev_cons_snoc in E. subst q. destruct (v' =? dur).
    + destruct (rev r') as [|x y] eqn:E2; cbn; [intros [= <- <- <-]|intros [= -> <-]]; eauto.
    + destruct (rev r') as [|x y] eqn:E2; cbn; [intros [= <- <- <-]|intros [= -> <-]]; eauto.
Qed.

Lemma push_nonempty q dur : push_dur q dur <> [].
Proof.
  unfold push_dur. destruct (rev q) as [|[v k] r]; [discriminate|].
  destruct (v =? dur); [destruct (rev r)|destruct q]; discriminate.
Qed.

(* ---- the loops ---- *)
Lemma offset_loop_ok q : forall fd lo hi, count_ok q -> 0 <= fd <= Z.of_nat (length (expand q)) ->
  fst (offset_loop q fd lo hi) = lo + zsum (firstn (Z.to_nat fd) (expand q)).
Proof.
  induction q as [|[v k] q IH]; intros fd lo hi Hc Hfd; cbn [offset_loop].
  - cbn. rewrite firstn_nil. cbn. lia.
  - inversion Hc as [|? ? Hk Hc']. subst. cbn [snd] in Hk.
    cbn [expand flat_map fst snd]. fold (expand q).
    destruct (Z.geb_spec k fd) as [Hle|Hgt]; cbn [fst].
    + rewrite firstn_app, firstn_repeat by lia.
      rewrite repeat_length. replace (Z.to_nat fd - Z.to_nat k)%nat with O by lia. cbn [firstn].
      rewrite app_nil_r, zsum_repeat_z by lia. lia.
    + cbn [expand flat_map fst snd] in Hfd. fold (expand q) in Hfd. rewrite app_length, repeat_length in Hfd.
      rewrite IH; [|exact Hc'|lia].
      rewrite firstn_app, repeat_length, firstn_rep_all by lia.
      rewrite zsum_app, zsum_repeat_z by lia. replace (Z.to_nat fd - Z.to_nat k)%nat with (Z.to_nat (fd - k)) by lia. lia.
Qed.

Lemma remove_loop_ok q : forall base off fd, count_ok q -> 0 <= base ->
  base + Z.of_nat (length (expand q)) < 2 ^ 64 ->
  (0 < base \/ Forall (fun r => 0 < snd r) q) ->
  base <= fd < base + Z.of_nat (length (expand q)) ->
  exists v k r, remove_loop q base off fd =
    ((v, k) :: r, fd + 1, off + zsum (firstn (Z.to_nat (fd + 1 - base)) (expand q))) /\
  count_ok ((v, k) :: r) /\
  expand ((v, k) :: r) = skipn (Z.to_nat (fd + 1 - base)) (expand q) /\
  v = nth (Z.to_nat (fd - base)) (expand q) 0 /\
  (forall P : run -> Prop, Forall P q -> (forall x a b, P (x, a) -> P (x, b)) -> Forall P ((v, k) :: r)).
Proof.
  induction q as [|[v k] q IH]; intros base off fd Hc Hb Hlen Hz Hfd; cbn [remove_loop].
  - cbn in Hfd. lia.
  - inversion Hc as [|? ? Hk Hc']. subst. cbn [snd] in Hk.
    cbn [expand flat_map fst snd] in *. fold (expand q) in *. rewrite app_length, repeat_length in *.
    assert (Hk' : 0 <= base + k - 1 < 2 ^ 64).
    { destruct Hz as [Hz|Hz]; [lia|]. inversion Hz. cbn in *. lia. }
    rewrite w64_id by exact Hk'.
    destruct (Z.geb_spec (base + k - 1) fd) as [Hle|Hgt].
    + exists v, (k - (fd - base + 1)), q. split; [|split; [|split; [|split]]].
      * f_equal. rewrite firstn_app, firstn_repeat by lia. rewrite repeat_length.
        replace (Z.to_nat (fd + 1 - base) - Z.to_nat k)%nat with O by lia. cbn [firstn].
        rewrite app_nil_r, zsum_repeat_z by lia. lia.
      * constructor; [cbn; lia|exact Hc'].
      * cbn [expand flat_map fst snd]. fold (expand q). rewrite skipn_app, skipn_repeat by lia.
        rewrite repeat_length. replace (Z.to_nat (fd + 1 - base) - Z.to_nat k)%nat with O by lia. cbn [skipn].
        f_equal. f_equal. lia.
      * rewrite app_nth1 by (rewrite repeat_length; lia). symmetry.
        rewrite nth_indep with (d' := v) by (rewrite repeat_length; lia). apply nth_repeat.
      * intros P HP Hany. inversion HP. subst. constructor; [eapply Hany; eassumption|assumption].
    + destruct (IH (base + k) (off + k * v) fd) as (v' & k' & r & E & H1 & H2 & H3 & H4); try assumption; try lia.
      exists v', k', r. rewrite E. split; [|split; [|split; [|split]]].
      * f_equal. rewrite firstn_app, repeat_length, firstn_rep_all by lia.
        rewrite zsum_app, zsum_repeat_z by lia.
        replace (Z.to_nat (fd + 1 - base) - Z.to_nat k)%nat with (Z.to_nat (fd + 1 - (base + k))) by lia. lia.
      * exact H1.
      * rewrite H2, skipn_app, repeat_length, skipn_rep_all by lia. cbn [app].
        f_equal. lia.
      * rewrite H3, app_nth2 by (rewrite repeat_length; lia). rewrite repeat_length. f_equal. lia.
      * intros P HP Hany. inversion HP. subst. apply H4; assumption.
Qed.

Lemma frame_loop_ok q : forall off walker, count_ok q -> Forall (fun r => 0 <= fst r) q ->
  0 <= walker -> walker + Z.of_nat (length (expand q)) < 2 ^ 64 ->
  q <> [] -> 0 <= off <= zsum (expand q) ->
  (0 < off \/ match q with (v, _) :: _ => v <> 0 | [] => True end) ->
  exists n r, frame_by_loop q off walker = AOk (walker + Z.of_nat n, r) /\
    (n <= length (expand q))%nat /\
    zsum (firstn n (expand q)) + r = off /\ 0 <= r /\
    (r = 0 \/ r < nth n (expand q) 0) /\
    (forall m, (m < n)%nat -> zsum (firstn m (expand q)) < off).
Proof.
  induction q as [|[v k] q IH]; intros off walker Hc Hv Hw Hlen Hne Hoff Hz; [contradiction|].
  inversion Hc as [|? ? Hk Hc']. subst. cbn [snd] in Hk. inversion Hv as [|? ? Hv0 Hv']. subst. cbn [fst] in Hv0.
  cbn [frame_by_loop]. cbn [expand flat_map fst snd] in *. fold (expand q) in *. rewrite app_length, repeat_length in *.
  destruct (Z.leb_spec off (k * v)) as [Hle|Hgt].
  - assert (Hvp : 0 < v) by nia. destruct (Z.eqb_spec v 0); [lia|].
    assert (Hd := Z.div_mod off v ltac:(lia)). assert (Hm := Z.mod_pos_bound off v Hvp).
    rewrite Z.quot_div_nonneg by lia. set (c := off / v) in *.
    assert (Hcc : 0 <= c <= k) by nia.
    assert (Hnk : (Z.to_nat c <= Z.to_nat k)%nat) by lia.
    exists (Z.to_nat c), (off mod v).
    rewrite (w64_id c) by lia. rewrite w64_id by lia.
    split; [f_equal; f_equal; lia|]. split; [lia|].
    rewrite firstn_app, firstn_repeat by lia. rewrite repeat_length.
    replace (Z.to_nat c - Z.to_nat k)%nat with O by lia. cbn [firstn]. rewrite app_nil_r, zsum_repeat_z by lia.
    split; [nia|]. split; [lia|]. split.
    + destruct (Z.eq_dec c k) as [Ek|Ek]; [left; nia|]. right.
      rewrite app_nth1 by (rewrite repeat_length; lia).
      rewrite nth_indep with (d' := v) by (rewrite repeat_length; lia). rewrite nth_repeat. lia.
    + intros m Hmc. rewrite firstn_app, firstn_repeat by lia. rewrite repeat_length.
      replace (m - Z.to_nat k)%nat with O by lia. cbn [firstn]. rewrite app_nil_r, zsum_repeat. nia.
  - rewrite zsum_app, zsum_repeat_z in Hoff by lia.
    assert (Hq : q <> []) by (intros ->; cbn in Hoff; nia).
    destruct (IH (off - v * k) (w64 (walker + k)) Hc' Hv') as (n & r & E & H1 & H2 & H3 & H4 & H5).
    { rewrite w64_id by lia. lia. } { rewrite w64_id by lia. lia. } { exact Hq. } { nia. } { left. lia. }
    rewrite w64_id in E by lia. exists (Z.to_nat k + n)%nat, r. rewrite w64_id by lia. rewrite E.
    split; [f_equal; f_equal; lia|]. split; [lia|].
    rewrite firstn_app, repeat_length, firstn_rep_all by lia.
    replace (Z.to_nat k + n - Z.to_nat k)%nat with n by lia. rewrite zsum_app, zsum_repeat_z by lia.
    split; [lia|]. split; [exact H3|]. split.
    + rewrite app_nth2 by (rewrite repeat_length; lia). rewrite repeat_length.
      replace (Z.to_nat k + n - Z.to_nat k)%nat with n by lia. exact H4.
    + intros m Hm. rewrite firstn_app, repeat_length, zsum_app.
      destruct (Nat.le_gt_cases m (Z.to_nat k)) as [Hmk|Hmk].
      * rewrite firstn_repeat by lia. replace (m - Z.to_nat k)%nat with O by lia. cbn [firstn zsum fold_right].
        rewrite zsum_repeat. nia.
      * rewrite firstn_rep_all by lia. rewrite zsum_repeat_z by lia.
        specialize (H5 (m - Z.to_nat k)%nat ltac:(lia)). lia.
Qed.

(* ---- the invariant of a history ---- *)
Record hinv (e id : Z) (h : history) (ds : list Z) : Prop := {
  hv_count : count_ok (h_q h);
  hv_vals : Forall (fun r => 0 <= fst r) (h_q h);
  hv_base : id <= h_base h <= id + Z.of_nat (length ds);
  hv_exp : expand (h_q h) = skipn (Z.to_nat (h_base h - id)) ds;
  hv_off : h_off h = zsum (firstn (Z.to_nat (h_base h - id)) ds);
  hv_last : h_last h = match ds with [] => id | _ => id + Z.of_nat (length ds) - 1 + e end;
  hv_bl : h_base h <= h_last h;
  hv_lim : id + Z.of_nat (length ds) < 2 ^ 64;
  hv_first : h_base h = id -> Forall (fun r => 0 < snd r) (h_q h);
  hv_ne : ds <> [] -> h_q h <> [];
  hv_in : Forall (fun r => In (fst r) ds) (h_q h)
}.

Lemma forall_skipn {A} (P : A -> Prop) n l : Forall P l -> Forall P (skipn n l).
Proof. revert l; induction n as [|n IH]; intros l H; [exact H|]. destruct H; cbn; auto. Qed.

Lemma firstn_shift (ds : list Z) b n : (b <= n)%nat -> 
  zsum (firstn b ds) + zsum (firstn (n - b) (skipn b ds)) = zsum (firstn n ds).
Proof.
  intros H. rewrite <- zsum_app. f_equal.
  rewrite <- (firstn_skipn b (firstn n ds)) at 1. rewrite firstn_firstn, Nat.min_l by lia. f_equal.
  rewrite skipn_firstn_comm. reflexivity.
Qed.

Lemma hinv_new e id : 0 <= id < 2 ^ 64 -> hinv e id (hist_new id) [].
Proof.
  intros H. constructor; cbn; try lia; auto.
  all: rewrite ?skipn_nil, ?firstn_nil; try reflexivity; constructor.
Qed.

Lemma hinv_add_tail e id h ds gap dur q' last' :
  (e = 0 \/ e = 1) -> 0 <= id -> hinv e id h ds -> 0 <= dur ->
  last' = id + Z.of_nat (length ds) + Z.of_nat gap + e -> (ds = [] -> gap = O) ->
  id + Z.of_nat (length ds) + Z.of_nat gap + 1 < 2 ^ 64 ->
  q' = (if (gap =? 0)%nat then h_q h else h_q h ++ [(0, Z.of_nat gap)]) ->
  hinv e id (mk_hist (push_dur q' dur) (h_base h) last' (h_off h)) (ds ++ repeat 0 gap ++ [dur]).
Proof.
  intros He Hid [A1 A2 A3 A4 A5 A6 A7 A8 A9 A10 A11] Hdur Hl Hg Hlim Hq.
  assert (Hq1 : count_ok q').
  { subst q'. destruct (gap =? 0)%nat; [exact A1|]. apply Forall_app. split; [exact A1|]. constructor; [cbn; lia|constructor]. }
  assert (Hq2 : expand q' = expand (h_q h) ++ repeat 0 gap).
  { subst q'. destruct (Nat.eqb_spec gap 0) as [->|]; [rewrite app_nil_r; reflexivity|].
    rewrite expand_app. cbn [expand flat_map fst snd]. rewrite app_nil_r, Nat2Z.id. reflexivity. }
  assert (Hlen : length (ds ++ repeat 0 gap ++ [dur]) = (length ds + gap + 1)%nat).
  { rewrite !app_length, repeat_length. cbn. lia. }
  constructor; cbn [h_q h_base h_last h_off].
  - apply push_forall; [exact Hq1|cbn; lia|cbn; intros; lia].
  - apply push_forall; [|cbn; lia|cbn; intros; lia]. subst q'. destruct (gap =? 0)%nat; [exact A2|].
    apply Forall_app. split; [exact A2|]. constructor; [cbn; lia|constructor].
  - rewrite Hlen. lia.
  - rewrite push_expand, Hq2, A4, <- app_assoc by exact Hq1. rewrite skipn_app.
    replace (Z.to_nat (h_base h - id) - length ds)%nat with O by lia. reflexivity.
  - rewrite A5, firstn_app. replace (Z.to_nat (h_base h - id) - length ds)%nat with O by lia.
    cbn [firstn]. rewrite app_nil_r. reflexivity.
  - assert (Hne : ds ++ repeat 0 gap ++ [dur] <> []) by (intros X; rewrite X in Hlen; cbn in Hlen; lia).
    destruct (ds ++ repeat 0 gap ++ [dur]); [congruence|]. rewrite Hlen. lia.
  - destruct ds; lia.
  - rewrite Hlen. lia.
  - intros Hb. apply push_forall; [|cbn; lia|cbn; intros; lia].
    subst q'. destruct (Nat.eqb_spec gap 0); [auto|]. apply Forall_app. split; [auto|]. constructor; [cbn; lia|constructor].
  - intros _. apply push_nonempty.
  - apply push_forall; [|cbn; rewrite !in_app_iff; cbn; auto|auto].
    assert (Hin : Forall (fun r : run => In (fst r) (ds ++ repeat 0 gap ++ [dur])) (h_q h)).
    { eapply Forall_impl; [|exact A11]. intros r Hr. apply in_or_app. left. exact Hr. }
    subst q'. destruct (Nat.eqb_spec gap 0) as [|Hg0]; [exact Hin|].
    apply Forall_app. split; [exact Hin|]. constructor; [|constructor]. cbn [fst]. rewrite !in_app_iff. right. left.
    destruct gap; [lia|left; reflexivity].
Qed.

Lemma hinv_remove e id h ds fd : (e = 0 \/ e = 1) -> 0 <= id -> hinv e id h ds ->
  hinv e id (remove_frames h fd) ds /\
  (remove_frames h fd = h /\ (fd < h_base h \/ h_last h <= fd) \/
   (h_base h <= fd < h_last h /\ h_base (remove_frames h fd) = fd + 1 /\
    exists k r, h_q (remove_frames h fd) = (duration id ds fd, k) :: r)).
Proof.
  intros He Hid I. pose proof I as [A1 A2 A3 A4 A5 A6 A7 A8 A9 A10 A11]. unfold remove_frames.
  destruct (Z.ltb_spec fd (h_base h)); [cbn [orb]; auto|].
  destruct (Z.geb_spec fd (h_last h)); [cbn [orb]; auto|]. cbn [orb].
  assert (Hds : ds <> []) by (intros ->; lia).
  assert (Hlast : h_last h = id + Z.of_nat (length ds) - 1 + e) by (destruct ds; [congruence|exact A6]).
  assert (Hel : length (expand (h_q h)) = (length ds - Z.to_nat (h_base h - id))%nat) by (rewrite A4; apply skipn_length).
  destruct (remove_loop_ok (h_q h) (h_base h) (h_off h) fd) as (v & k & r & E & H1 & H2 & H3 & H4); try lia; try assumption.
  { destruct (Z.eq_dec (h_base h) id) as [Eb|]; [right; auto|left; lia]. }
  rewrite E. split.
  - constructor; cbn [h_q h_base h_last h_off].
    + exact H1.
    + apply H4; [exact A2|auto].
    + lia.
    + rewrite H2, A4, skipn_skipn'. f_equal. lia.
    + rewrite A5, A4. replace (Z.to_nat (fd + 1 - h_base h)) with (Z.to_nat (fd + 1 - id) - Z.to_nat (h_base h - id))%nat by lia.
      apply firstn_shift. lia.
    + exact A6.
    + lia.
    + exact A8.
    + lia.
    + discriminate.
    + apply H4; [exact A11|auto].
  - right. split; [lia|]. split; [reflexivity|]. exists k, r. cbn [h_q]. f_equal. f_equal. rewrite H3, A4. unfold duration.
    rewrite <- (firstn_skipn (Z.to_nat (h_base h - id)) ds) at 2.
    rewrite app_nth2; rewrite firstn_length_le by lia; [f_equal; lia|lia].
Qed.

Lemma add_frame_eq h fd dur : 0 <= h_last h -> 0 <= fd - h_last h < 2 ^ 31 -> fd < 2 ^ 64 ->
  add_frame h fd dur =
  AOk (mk_hist (push_dur (if fd - h_last h >? 1 then h_q h ++ [(0, fd - h_last h - 1)] else h_q h) dur)
         (h_base h) fd (h_off h)).
Proof.
  intros Hl Hc Hf. unfold add_frame. rewrite s32_id by lia. unfold handle_disc.
  destruct (Z.ltb_spec (fd - h_last h) 0); [lia|].
  replace (h_last h + (fd - h_last h)) with fd by lia. rewrite w64_id by lia.
  destruct (fd - h_last h >? 1); reflexivity.
Qed.

Lemma reach_hinv e id h ds : (e = 0 \/ e = 1) -> 0 <= id < 2 ^ 64 - 2 -> reach e id h ds -> hinv e id h ds.
Proof.
  intros He Hid. induction 1 as [|dur h' Hd E|h ds fd dur h' R IH Hne Hfd Hgap Hd E|h ds fd R IH].
  - apply hinv_new. lia.
  - rewrite add_frame_eq in E by (cbn; lia). cbn [hist_new h_last h_q h_base h_off] in E.
    destruct (Z.gtb_spec (id + e - id) 1); [lia|]. injection E as <-.
    apply (hinv_add_tail e id (hist_new id) [] 0 dur []); cbn; try lia; auto. apply hinv_new. lia.
  - pose proof IH as [A1 A2 A3 A4 A5 A6 A7 A8 A9 A10 A11].
    assert (Hl : h_last h = id + Z.of_nat (length ds) - 1 + e) by (destruct ds; [congruence|exact A6]).
    rewrite add_frame_eq in E by lia. injection E as <-.
    apply (hinv_add_tail e id h ds (Z.to_nat (fd - h_last h - 1)) dur); auto; try lia; [congruence|].
    destruct (Z.gtb_spec (fd - h_last h) 1), (Nat.eqb_spec (Z.to_nat (fd - h_last h - 1)) 0); try lia; auto.
    f_equal. f_equal. f_equal. lia.
  - apply hinv_remove; auto. lia.
Qed.

(* what the two lookups return *)
Lemma hinv_offset e id h ds fd : (e = 0 \/ e = 1) -> hinv e id h ds -> h_base h <= fd <= h_last h ->
  exists hi, offset_by_frame h fd = AOk (samples_before id ds fd, hi).
Proof.
  intros He [A1 A2 A3 A4 A5 A6 A7 A8 A9 A10 A11] Hfd. unfold offset_by_frame.
  destruct (Z.ltb_spec fd (h_base h)); [lia|]. destruct (Z.gtb_spec fd (h_last h)); [lia|]. cbn [orb].
  pose proof (offset_loop_ok (h_q h) (fd - h_base h) (h_off h) (h_off h) A1) as L.
  assert (Hle : 0 <= fd - h_base h <= Z.of_nat (length (expand (h_q h)))).
  { rewrite A4, skipn_length. destruct ds; cbn [length] in *; lia. }
  specialize (L Hle). destruct (offset_loop _ _ _ _) as [lo hi]. cbn [fst] in L. exists hi. do 2 f_equal. rewrite L, A5, A4.
  unfold samples_before. replace (Z.to_nat (fd - h_base h)) with (Z.to_nat (fd - id) - Z.to_nat (h_base h - id))%nat by lia.
  apply firstn_shift. lia.
Qed.

Lemma hinv_lookup e id h ds off : (e = 0 \/ e = 1) -> 0 <= id -> hinv e id h ds -> Forall (Z.le 0) ds -> ds <> [] ->
  h_off h <= off <= zsum ds ->
  (h_off h < off \/ match h_q h with (v, _) :: _ => v <> 0 | [] => True end) ->
  exists fid rem, frame_by_offset h off = AOk (fid, rem) /\
    h_base h <= fid <= id + Z.of_nat (length ds) /\ position id ds off fid rem /\
    (forall g, h_base h <= g < fid -> samples_before id ds g < off).
Proof.
  intros He Hid [A1 A2 A3 A4 A5 A6 A7 A8 A9 A10 A11] Hpos Hne Hoff Hz. unfold frame_by_offset.
  set (b := Z.to_nat (h_base h - id)) in *.
  assert (Hlen : length (expand (h_q h)) = (length ds - b)%nat) by (rewrite A4; apply skipn_length).
  assert (Htot : zsum (expand (h_q h)) = zsum ds - h_off h).
  { rewrite A4, A5. rewrite <- (firstn_skipn b ds) at 2. rewrite zsum_app. lia. }
  destruct (frame_loop_ok (h_q h) (off - h_off h) (h_base h)) as (n & r & E & H1 & H2 & H3 & H4 & H5); try assumption; try lia.
  { auto. }
  { destruct Hz as [Hz|Hz]; [left; lia|right; exact Hz]. }
  assert (Sb : forall m, zsum (firstn m (expand (h_q h))) + h_off h = zsum (firstn (b + m) ds)).
  { intros m. rewrite A4, A5. pose proof (firstn_shift ds b (b + m)%nat ltac:(lia)) as S.
    replace (b + m - b)%nat with m in S by lia. lia. }
  exists (h_base h + Z.of_nat n), r. split; [exact E|]. split; [lia|]. split; [split; [|split]|].
  - unfold samples_before. replace (Z.to_nat (h_base h + Z.of_nat n - id)) with (b + n)%nat by lia. rewrite <- Sb. lia.
  - exact H3.
  - destruct H4 as [H4|H4]; [left; exact H4|right]. unfold duration.
    replace (Z.to_nat (h_base h + Z.of_nat n - id)) with (b + n)%nat by lia.
    rewrite A4 in H4. rewrite <- (firstn_skipn b ds). rewrite app_nth2; rewrite firstn_length_le by lia; [|lia].
    replace (b + n - b)%nat with n by lia. exact H4.
  - intros g Hg. specialize (H5 (Z.to_nat (g - h_base h)) ltac:(lia)). unfold samples_before.
    replace (Z.to_nat (g - id)) with (b + Z.to_nat (g - h_base h))%nat by lia. rewrite <- Sb. lia.
Qed.

Lemma reach_nonneg e id h ds : reach e id h ds -> Forall (Z.le 0) ds.
Proof.
  induction 1 as [|dur h' Hd E|h ds fd dur h' R IH Hne Hfd Hgap Hd E|h ds fd R IH]; auto.
  - constructor; [lia|constructor].
  - apply Forall_app. split; [exact IH|]. apply Forall_app. split; [|auto].
    apply Forall_forall. intros x Hx. apply repeat_spec in Hx. lia.
Qed.

Lemma before_base e id h ds : hinv e id h ds -> samples_before id ds (h_base h) = h_off h.
Proof. intros H. symmetry. apply (hv_off _ _ _ _ H). Qed.

(* ---- the audio ack map ---- *)
Lemma firstn_zsum_mono ds a b : Forall (Z.le 0) ds -> (a <= b)%nat -> zsum (firstn a ds) <= zsum (firstn b ds).
Proof.
  intros H Hab. rewrite <- (firstn_shift ds a b Hab).
  assert (0 <= zsum (firstn (b - a) (skipn a ds))); [|lia].
  apply zsum_nonneg. apply Forall_forall. intros x Hx. rewrite Forall_forall in H. apply H.
  rewrite <- (firstn_skipn a ds). apply in_or_app. right.
  rewrite <- (firstn_skipn (b - a) (skipn a ds)). apply in_or_app. left. exact Hx.
Qed.

Lemma before_mono id ds a b : Forall (Z.le 0) ds -> a <= b -> samples_before id ds a <= samples_before id ds b.
Proof. intros H Hab. apply firstn_zsum_mono; [exact H|lia]. Qed.

Lemma before_app id ds ds' f : f <= id + Z.of_nat (length ds) -> samples_before id (ds ++ ds') f = samples_before id ds f.
Proof.
  intros H. unfold samples_before. rewrite firstn_app.
  replace (Z.to_nat (f - id) - length ds)%nat with O by lia. cbn [firstn]. rewrite app_nil_r. reflexivity.
Qed.

Lemma before_next id ds f : id <= f < id + Z.of_nat (length ds) ->
  samples_before id ds (f + 1) = samples_before id ds f + duration id ds f.
Proof.
  intros H. unfold samples_before, duration. replace (Z.to_nat (f + 1 - id)) with (S (Z.to_nat (f - id))) by lia.
  set (n := Z.to_nat (f - id)). assert (Hn : (n < length ds)%nat) by lia. clearbody n. clear H f id.
  revert ds Hn. induction n as [|n IH]; intros [|x ds] Hn; cbn [length] in Hn; try lia.
  - cbn. lia.
  - change (firstn (S (S n)) (x :: ds)) with (x :: firstn (S n) ds).
    change (firstn (S n) (x :: ds)) with (x :: firstn n ds).
    change (nth (S n) (x :: ds) 0) with (nth n ds 0). unfold zsum in *. cbn [fold_right]. rewrite IH by lia. lia.
Qed.

(* [f] was the answer for an offset not after the current one *)
Definition settled (id_in : Z) (m : amap) (din : list Z) (f : Z) : Prop :=
  exists off, off <= h_off (a_out m) /\ samples_before id_in din f <= off /\
  id_in <= f <= id_in + Z.of_nat (length din) /\
  forall g, h_base (a_in m) <= g < f -> samples_before id_in din g < off.

Record ainv (id_in id_out : Z) (m : amap) (din dout : list Z) (acks : list (Z * Z)) : Prop := {
  ai_in : hinv 0 id_in (a_in m) din;
  ai_out : hinv 1 id_out (a_out m) dout;
  ai_pin : Forall (Z.le 0) din;
  ai_pout : Forall (Z.lt 0) dout;
  ai_le : h_off (a_in m) <= h_off (a_out m);
  ai_front : forall v k r, h_q (a_in m) = (v, k) :: r -> v = 0 -> h_off (a_in m) < h_off (a_out m);
  ai_settled : forall a f, In (a, f) acks -> settled id_in m din f
}.

Lemma pos_nonneg l : Forall (Z.lt 0) l -> Forall (Z.le 0) l.
Proof. intros H. eapply Forall_impl; [|exact H]. intros; lia. Qed.

Lemma ainv_in id_in id_out m din dout acks h ds' :
  ainv id_in id_out m din dout acks -> hinv 0 id_in h (din ++ ds') -> Forall (Z.le 0) ds' ->
  h_base h = h_base (a_in m) -> h_off h = h_off (a_in m) ->
  (forall v k r, h_q h = (v, k) :: r -> v = 0 -> exists k' r', h_q (a_in m) = (v, k') :: r') ->
  ainv id_in id_out (mk_amap h (a_filtered m) (a_out m)) (din ++ ds') dout acks.
Proof.
  intros [I1 I2 I3 I4 I0 I5 I6] Hh Hp Hb Ho Hf. constructor; cbn [a_in a_out]; auto.
  - apply Forall_app. auto.
  - rewrite Ho. exact I0.
  - intros v k r E Ev. destruct (Hf v k r E Ev) as (k' & r' & E'). rewrite Ho. eapply I5; eassumption.
  - intros a f Haf. destruct (I6 a f Haf) as (off & S1 & S2 & S3 & S4).
    exists off. cbn [a_in a_out]. rewrite before_app by lia. split; [exact S1|]. split; [exact S2|].
    split; [rewrite app_length; lia|]. intros g Hg. rewrite before_app by lia. apply S4. lia.
Qed.


Lemma audio_map_ok id_in id_out m din dout acks ack :
  0 <= id_in -> 0 <= id_out -> ainv id_in id_out m din dout acks -> din <> [] ->
  h_base (a_out m) <= ack <= h_last (a_out m) ->
  samples_before id_out dout ack <= zsum din ->
  exists fid rem m', audio_map m ack = AOk (fid, rem, m') /\
    position id_in din (samples_before id_out dout ack) fid rem.
Proof.
  intros Hi Ho [I1 I2 I3 I4 I0 I5 I6] Hne Hack Hoff. unfold audio_map.
  destruct (hinv_offset 1 id_out (a_out m) dout ack (or_intror eq_refl) I2 Hack) as (hi & Eo). rewrite Eo.
  set (off := samples_before id_out dout ack) in *.
  assert (Hle : h_off (a_out m) <= off).
  { rewrite <- (before_base _ _ _ _ I2). apply before_mono; [apply pos_nonneg; exact I4|lia]. }
  destruct (hinv_lookup 0 id_in (a_in m) din off (or_introl eq_refl) Hi I1 I3 Hne) as (fid & rem & Ef & Hr & Hp & Hm).
  - lia.
  - destruct (h_q (a_in m)) as [|[v k] r] eqn:Eq; [auto|]. destruct (Z.eq_dec v 0) as [->|]; [left|right; assumption].
    specialize (I5 0 k r eq_refl eq_refl). lia.
  - rewrite Ef. eauto.
Qed.

Lemma w64_pred z : 0 <= z < 2 ^ 64 -> w64 (z - 1) = if z =? 0 then 2 ^ 64 - 1 else z - 1.
Proof.
  intros H. destruct (Z.eqb_spec z 0) as [->|]; [reflexivity|]. apply w64_id. lia.
Qed.

Lemma audio_ack_step id_in id_out m din dout acks ack fid rem m' :
  0 <= id_in -> 0 <= id_out -> h_last (a_out m) < 2 ^ 64 - 1 ->
  ainv id_in id_out m din dout acks ->
  audio_map m ack = AOk (fid, rem, m') -> samples_before id_out dout ack <= zsum din -> din <> [] ->
  ainv id_in id_out m' din dout (acks ++ [(ack, fid)]) /\
  position id_in din (samples_before id_out dout ack) fid rem /\
  (forall a f, In (a, f) acks -> f <= fid).
Proof.
  intros Hi Ho Hlout I E Hoff Hne. pose proof I as [I1 I2 I3 I4 I0 I5 I6]. unfold audio_map in E.
  assert (Hack : h_base (a_out m) <= ack <= h_last (a_out m)).
  { unfold offset_by_frame in E. destruct (Z.ltb_spec ack (h_base (a_out m))); [discriminate|].
    destruct (Z.gtb_spec ack (h_last (a_out m))); [discriminate|]. lia. }
  destruct (hinv_offset 1 id_out (a_out m) dout ack (or_intror eq_refl) I2 Hack) as (hi & Eo). rewrite Eo in E.
  set (off := samples_before id_out dout ack) in *.
  assert (Hle : h_off (a_out m) <= off).
  { rewrite <- (before_base _ _ _ _ I2). apply before_mono; [apply pos_nonneg; exact I4|lia]. }
  destruct (hinv_lookup 0 id_in (a_in m) din off (or_introl eq_refl) Hi I1 I3 Hne) as (fid' & rem' & Ef & Hr & Hp & Hm).
  { lia. }
  { destruct (h_q (a_in m)) as [|[v k] r] eqn:Eq; [auto|]. destruct (Z.eq_dec v 0) as [->|]; [left|right; assumption].
    specialize (I5 0 k r eq_refl eq_refl). lia. }
  rewrite Ef in E. injection E as -> -> <-.
  pose proof (hv_base _ _ _ _ I1) as B1. pose proof (hv_base _ _ _ _ I2) as B2.
  pose proof (hv_last _ _ _ _ I2) as L2. pose proof (hv_bl _ _ _ _ I2) as BL2.
  assert (Hlin : h_last (a_in m) < 2 ^ 64 - 1) by (rewrite (hv_last _ _ _ _ I1); pose proof (hv_lim _ _ _ _ I1); destruct din; cbn [length] in *; [congruence|lia]).
  pose proof (hv_lim _ _ _ _ I1) as Hlim.
  (* the output side *)
  destruct (hinv_remove 1 id_out (a_out m) dout (w64 (ack - 1)) (or_intror eq_refl) Ho I2) as [K2 C2].
  assert (Hbo : h_base (remove_frames (a_out m) (w64 (ack - 1))) = ack).
  { rewrite w64_pred in * by lia. destruct (Z.eqb_spec ack 0) as [->|Hnz].
    - destruct C2 as [[C2 _]|(C2 & _)]; [rewrite C2; lia|lia].
    - destruct C2 as [[C2 C2']|(_ & C2 & _)]; [rewrite C2; lia|lia]. }
  assert (Hoo : h_off (remove_frames (a_out m) (w64 (ack - 1))) = off).
  { rewrite <- (before_base _ _ _ _ K2), Hbo. reflexivity. }
  (* the input side *)
  destruct (hinv_remove 0 id_in (a_in m) din (w64 (fid - 1)) (or_introl eq_refl) Hi I1) as [K1 C1].
  assert (Hbi : h_base (a_in m) <= h_base (remove_frames (a_in m) (w64 (fid - 1))) <= fid /\
    (remove_frames (a_in m) (w64 (fid - 1)) = a_in m \/
     exists k r, h_base (remove_frames (a_in m) (w64 (fid - 1))) = fid /\ h_base (a_in m) <= fid - 1 /\
       h_q (remove_frames (a_in m) (w64 (fid - 1))) = (duration id_in din (fid - 1), k) :: r)).
  { rewrite w64_pred in * by lia. destruct (Z.eqb_spec fid 0) as [->|Hnz].
    - destruct C1 as [[C1 _]|(C1 & _)]; [rewrite C1; split; [lia|auto]|lia].
    - destruct C1 as [[C1 _]|(C0 & C1 & k & r & C3)]; [rewrite C1; split; [lia|auto]|].
      split; [lia|]. right. exists k, r. repeat split; [lia|lia|exact C3]. }
  destruct Hp as (P1 & P2 & P3).
  assert (Hbf : samples_before id_in din fid <= off) by lia.
  assert (Hoi : h_off (remove_frames (a_in m) (w64 (fid - 1))) <= off).
  { rewrite <- (before_base _ _ _ _ K1). etransitivity; [apply before_mono; [exact I3|apply Hbi]|exact Hbf]. }
  split; [|split].
  - constructor; cbn [a_in a_out]; auto.
    + rewrite Hoo. exact Hoi.
    + intros v k r Eq Ev. rewrite Hoo. destruct Hbi as [Hb1 [Hsame|(k' & r' & Hb2 & Hb3 & Hq)]].
      * rewrite Hsame in *. specialize (I5 v k r Eq Ev). lia.
      * rewrite Hq in Eq. injection Eq as <- <- <-.
        rewrite <- (before_base _ _ _ _ K1), Hb2.
        replace fid with (fid - 1 + 1) by lia. rewrite before_next by lia. rewrite Ev.
        specialize (Hm (fid - 1) ltac:(lia)). lia.
    + intros a f Hin. apply in_app_or in Hin. destruct Hin as [Hin|[[= <- <-]|[]]].
      * destruct (I6 a f Hin) as (off0 & S1 & S2 & S3 & S4). exists off0. cbn [a_in a_out]. rewrite Hoo.
        split; [lia|]. split; [exact S2|]. split; [exact S3|]. intros g Hg. apply S4. lia.
      * exists off. cbn [a_in a_out]. rewrite Hoo. split; [lia|]. split; [exact Hbf|]. split; [lia|].
        intros g Hg. apply Hm. lia.
  - repeat split; assumption.
  - intros a f Hin. destruct (I6 a f Hin) as (off0 & S1 & S2 & S3 & S4).
    destruct (Z.le_gt_cases f fid) as [Hd|Hd]; [exact Hd|exfalso].
    specialize (S4 fid ltac:(lia)).
    assert (Hn : samples_before id_in din (fid + 1) <= samples_before id_in din f) by (apply before_mono; [exact I3|lia]).
    rewrite before_next in Hn by lia. destruct P3 as [P3|P3]; lia.
Qed.

Lemma frame_loop_bound q : forall off walker r, count_ok q -> Forall (fun r => 0 <= fst r) q ->
  frame_by_loop q off walker = AOk r -> off <= zsum (expand q) /\ q <> [].
Proof.
  induction q as [|[v k] q IH]; intros off walker r Hc Hv E; cbn [frame_by_loop] in E; [discriminate|].
  inversion Hc as [|? ? Hk Hc']. subst. cbn [snd] in Hk. inversion Hv as [|? ? Hv0 Hv']. subst. cbn [fst] in Hv0.
  cbn [expand flat_map fst snd]. fold (expand q). rewrite zsum_app, zsum_repeat_z by lia. split; [|discriminate].
  destruct (Z.leb_spec off (k * v)) as [Hle|Hgt].
  - assert (0 <= zsum (expand q)); [|lia]. apply zsum_nonneg. apply Forall_forall. intros x Hx.
    unfold expand in Hx. apply in_flat_map in Hx. destruct Hx as ([v' k'] & Hin & Hx). cbn in Hx. apply repeat_spec in Hx.
    rewrite Forall_forall in Hv'. specialize (Hv' _ Hin). cbn in Hv'. lia.
  - apply IH in E; [|assumption|assumption]. lia.
Qed.

Lemma hinv_lookup_bound e id h ds off r : hinv e id h ds -> frame_by_offset h off = AOk r ->
  off <= zsum ds /\ ds <> [].
Proof.
  intros [A1 A2 A3 A4 A5 A6 A7 A8 A9 A10 A11] E. apply frame_loop_bound in E; [|assumption|assumption].
  destruct E as [E1 E2]. rewrite A4 in E1. split.
  - rewrite <- (firstn_skipn (Z.to_nat (h_base h - id)) ds). rewrite zsum_app. lia.
  - intros ->. destruct (h_q h) as [|x q]; [congruence|]. inversion A11 as [|? ? Hx _]. destruct Hx.
Qed.

Lemma add_frame_shape h fd dur h' : h_last h <= fd -> 0 <= h_last h -> fd - h_last h < 2 ^ 31 -> fd < 2 ^ 64 ->
  add_frame h fd dur = AOk h' ->
  h_base h' = h_base h /\ h_off h' = h_off h /\ h_last h' = fd /\
  (h_q h <> [] -> forall v k r, h_q h' = (v, k) :: r -> exists k' r', h_q h = (v, k') :: r').
Proof.
  intros H1 H2 H3 H4 E. rewrite add_frame_eq in E by lia. injection E as <-. cbn [h_base h_off h_last h_q].
  repeat split. intros Hne v k r Eq. destruct (fd - h_last h >? 1).
  - apply push_front in Eq; [|destruct (h_q h); discriminate]. destruct Eq as (k' & r' & Eq).
    destruct (h_q h) as [|x q]; [congruence|]. cbn in Eq. injection Eq as -> _. eauto.
  - apply push_front in Eq; [exact Eq|exact Hne].
Qed.

Lemma areach_ainv id_in id_out m din dout acks :
  0 <= id_in < 2 ^ 64 - 2 -> 0 <= id_out < 2 ^ 64 - 2 ->
  areach id_in id_out m din dout acks -> ainv id_in id_out m din dout acks /\ h_last (a_out m) < 2 ^ 64 - 1.
Proof.
  intros Hi Ho. induction 1 as
    [|m dout acks dur m' R [I L] Hd E|m din dout acks fd dur m' R [I L] Hne Hfd Hgap Hd E
     |m din dout acks id n R [I L]|m din dout acks n m' t R [I L] Hn Hl E E2|m din dout acks ack fid rem m' R [I L] E].
  - split; [|cbn; lia]. constructor; cbn; try lia; auto.
    + apply hinv_new. lia.
    + apply hinv_new. lia.
    + intros v k r [=].
  - split; [|unfold audio_in in E; destruct (add_frame _ _ _); try discriminate; injection E as <-; exact L].
    unfold audio_in in E. pose proof (ai_in _ _ _ _ _ _ I) as I1.
    assert (Elast : h_last (a_in m) = id_in) by (apply (hv_last _ _ _ _ I1)).
    assert (Ebase : h_base (a_in m) = id_in) by (pose proof (hv_base _ _ _ _ I1); pose proof (hv_bl _ _ _ _ I1); lia).
    rewrite add_frame_eq in E by lia. rewrite Elast, Z.sub_diag in E. cbn [Z.gtb Z.compare] in E. injection E as <-.
    assert (Eq : h_q (a_in m) = []).
    { destruct (h_q (a_in m)) as [|x q] eqn:Eq; [reflexivity|]. pose proof (hv_in _ _ _ _ I1) as X. rewrite Eq in X.
      inversion X as [|? ? Hx _]. destruct Hx. }
    change [dur] with ([] ++ [dur]).
    apply (ainv_in id_in id_out m [] dout acks _ [dur]); auto.
    + apply (hinv_add_tail 0 id_in (a_in m) [] 0 dur); cbn; auto; lia.
    + constructor; [lia|constructor].
    + cbn [h_q]. rewrite Eq. cbn. intros v k r [= <- <- <-] ->. lia.
  - split; [|unfold audio_in in E; destruct (add_frame _ _ _); try discriminate; injection E as <-; exact L].
    unfold audio_in in E. pose proof (ai_in _ _ _ _ _ _ I) as I1.
    destruct (add_frame (a_in m) fd dur) as [h| |] eqn:Ea; try discriminate. injection E as <-.
    assert (Hl0 : 0 <= h_last (a_in m)) by (pose proof (hv_base _ _ _ _ I1); pose proof (hv_bl _ _ _ _ I1); lia).
    destruct (add_frame_shape (a_in m) fd dur h) as (S1 & S2 & S3 & S4); try lia; try assumption.
    apply ainv_in; auto.
    + rewrite add_frame_eq in Ea by lia. injection Ea as <-.
      assert (Hl : h_last (a_in m) = id_in + Z.of_nat (length din) - 1 + 0) by (rewrite (hv_last _ _ _ _ I1); destruct din; [congruence|reflexivity]).
      apply (hinv_add_tail 0 id_in (a_in m) din (Z.to_nat (fd - h_last (a_in m) - 1)) dur); auto; try lia; [congruence|].
      destruct (Z.gtb_spec (fd - h_last (a_in m)) 1), (Nat.eqb_spec (Z.to_nat (fd - h_last (a_in m) - 1)) 0); try lia; auto.
      f_equal. f_equal. f_equal. lia.
    + apply Forall_app. split; [|auto]. apply Forall_forall. intros x Hx. apply repeat_spec in Hx. lia.
    + intros v k r Eq _. apply (S4 (hv_ne _ _ _ _ I1 Hne) v k r Eq).
  - split; [|exact L]. destruct I as [I1 I2 I3 I4 I0 I5 I6]. constructor; auto.
  - pose proof I as [I1 I2 I3 I4 I0 I5 I6].
    assert (Hin : a_in m' = a_in m).
    { unfold audio_out in E. destruct (add_frame _ _ _); try discriminate. destruct (out_loop _ _ _ _) as [[[f o] t']| |]; try discriminate.
      injection E as <- _. reflexivity. }
    assert (Hl0 : 0 <= h_last (a_out m)) by (pose proof (hv_base _ _ _ _ I2); pose proof (hv_bl _ _ _ _ I2); lia).
    destruct (add_frame_shape (a_out m) (h_last (a_out m) + 1) n (a_out m')) as (S1 & S2 & S3 & S4); try lia; try assumption.
    split; [|lia]. constructor; rewrite ?Hin; auto.
    + rewrite add_frame_eq in E2 by lia. replace (h_last (a_out m) + 1 - h_last (a_out m)) with 1 in E2 by lia.
      cbn [Z.gtb Z.compare Pos.compare Pos.compare_cont] in E2. injection E2 as E2. rewrite <- E2.
      change [n] with (repeat 0 0 ++ [n]).
      apply (hinv_add_tail 1 id_out (a_out m) dout 0 n (h_q (a_out m))); auto; try lia.
      * rewrite (hv_last _ _ _ _ I2). destruct dout; cbn [length]; lia.
      * rewrite (hv_last _ _ _ _ I2) in Hl. destruct dout; cbn [length] in *; lia.
    + apply Forall_app. split; [exact I4|auto].
    + rewrite S2. exact I0.
    + rewrite S2. exact I5.
    + intros a f Haf. destruct (I6 a f Haf) as (off & T1 & T2 & T3 & T4). exists off. rewrite Hin, S2. auto.
  - pose proof I as [I1 I2 I3 I4 I0 I5 I6].
    assert (Hb : samples_before id_out dout ack <= zsum din /\ din <> []).
    { unfold audio_map in E.
      assert (Hack : h_base (a_out m) <= ack <= h_last (a_out m)).
      { unfold offset_by_frame in E. destruct (Z.ltb_spec ack (h_base (a_out m))); [discriminate|].
        destruct (Z.gtb_spec ack (h_last (a_out m))); [discriminate|]. lia. }
      destruct (hinv_offset 1 id_out (a_out m) dout ack (or_intror eq_refl) I2 Hack) as (hi & Eo). rewrite Eo in E.
      destruct (frame_by_offset _ _) eqn:Ef; try discriminate. eapply hinv_lookup_bound; eassumption. }
    destruct (audio_ack_step id_in id_out m din dout acks ack fid rem m') as (I' & _ & _); try lia; try assumption; try apply Hb.
    split; [exact I'|].
    unfold audio_map in E. destruct (offset_by_frame _ _) as [[o x]| |]; try discriminate.
    destruct (frame_by_offset _ _) as [[f x']| |]; try discriminate. injection E as _ _ <-. cbn [a_out].
    unfold remove_frames. destruct (_ || _); [exact L|]. destruct (remove_loop _ _ _ _) as [[q b] o']. exact L.
Qed.

(* ---- the video ack map ---- *)
Lemma find_split_spec {A} (p : A -> bool) l x r : find_split p l = Some (x, r) ->
  exists pre rest, l = pre ++ r /\ r = x :: rest /\ p x = true /\ forall y, In y pre -> p y = false.
Proof.
  revert r. induction l as [|y l IH]; intros r E; cbn in E; [discriminate|].
  destruct (p y) eqn:Ep.
  - injection E as <- <-. exists [], l. repeat split; auto. intros y' [].
  - apply IH in E. destruct E as (pre & rest & -> & Er & Ex & Hf). exists (y :: pre), rest.
    repeat split; auto. intros y' [<-|H]; auto.
Qed.

Lemma find_split_some {A} (p : A -> bool) l x : In x l -> p x = true -> exists y r, find_split p l = Some (y, r).
Proof.
  induction l as [|y l IH]; intros H Hp; [destruct H|]. cbn.
  destruct (p y) eqn:E; [eauto|]. destruct H as [->|H]; [congruence|]. auto.
Qed.

Lemma last_key_app id0 a b id : last_key id0 (a ++ b) id = last_key (last_key id0 a id) b id.
Proof. revert id0. induction a as [|[[i p] k] a IH]; intros id0; cbn; auto. Qed.

Lemma last_key_le id0 ins id : id0 <= id -> last_key id0 ins id <= id.
Proof.
  revert id0. induction ins as [|[[i p] k] ins IH]; intros id0 H; cbn; [exact H|]. apply IH.
  destruct k; cbn [andb]; [|exact H]. destruct (Z.leb_spec i id); lia.
Qed.

Lemma last_key_same id0 ins a b : (forall i p k, In (i, p, k) ins -> i <= a) ->
  (forall i p k, In (i, p, k) ins -> i <= b) -> last_key id0 ins a = last_key id0 ins b.
Proof.
  revert id0. induction ins as [|[[i p] k] ins IH]; intros id0 Ha Hb; cbn; [reflexivity|].
  destruct (Z.leb_spec i a); [|exfalso; specialize (Ha i p k (or_introl eq_refl)); lia].
  destruct (Z.leb_spec i b); [|exfalso; specialize (Hb i p k (or_introl eq_refl)); lia].
  apply IH; intros; [eapply Ha|eapply Hb]; right; eassumption.
Qed.

Lemma last_key_after id0 ins i p k id : id < i -> last_key id0 (ins ++ [(i, p, k)]) id = last_key id0 ins id.
Proof.
  intros H. rewrite last_key_app. cbn. destruct (Z.leb_spec i id); [lia|]. rewrite andb_false_r. reflexivity.
Qed.

(* the entry of an input frame *)
Definition ventry (id0 : Z) (ins : list (Z * Z * bool)) (f : Z * Z * bool) : Z * (Z * Z) :=
  let '(i, p, k) := f in (p, (last_key id0 ins i, w32 (last_key id0 ins i - i))).

Fixpoint nondec (l : list Z) : Prop :=
  match l with
  | [] => True
  | x :: r => (forall y, In y r -> x <= y) /\ nondec r
  end.

Lemma nondec_app a b : nondec (a ++ b) <-> nondec a /\ nondec b /\ (forall x y, In x a -> In y b -> x <= y).
Proof.
  induction a as [|x a IH]; cbn; [intuition|]. rewrite IH. split.
  - intros (H1 & H2 & H3 & H4). repeat split; auto.
    + intros y Hy. apply H1. apply in_or_app. auto.
    + intros u v [<-|Hu] Hv; [apply H1; apply in_or_app; auto|auto].
  - intros ((H1 & H2) & H3 & H4). repeat split; auto.
    intros y Hy. apply in_app_or in Hy. destruct Hy; auto.
Qed.

Definition key_of (e : Z * (Z * Z)) : Z := fst (snd e).

(* what an answer (output id, key frame id, offset) stands for *)
Definition answers (id0 : Z) (ins : list (Z * Z * bool)) (outs : list (Z * Z)) (o : Z * (Z * Z)) : Prop :=
  exists i p k q, In (i, p, k) ins /\ In (fst o, q) outs /\ close p q /\
    key_of o = last_key id0 ins i /\ snd (snd o) = w32 (last_key id0 ins i - i).

Record vinv (id0 : Z) (m : vmap) (ins : list (Z * Z * bool)) (outs acks : list (Z * Z)) : Prop := {
  vi_lo : forall i p k, In (i, p, k) ins -> id0 <= i;
  vi_key : forall id, (forall i p k, In (i, p, k) ins -> i <= id) -> v_key m = last_key id0 ins id;
  vi_in : exists pre suf, ins = pre ++ suf /\ v_input m = map (ventry id0 ins) suf;
  vi_out : forall o, In o (v_output m) -> answers id0 ins outs o;
  vi_sorted : nondec (map snd acks ++ map key_of (v_output m) ++ map key_of (v_input m));
  vi_keymax : forall x, In x (map snd acks ++ map key_of (v_output m) ++ map key_of (v_input m)) -> x <= v_key m;
  vi_pre : exists pre, map fst outs = pre ++ map fst (v_output m) /\
     (pre <> [] -> exists a o r, In a (map fst acks) /\ v_output m = (a, o) :: r)
}.

Lemma ventry_key id0 ins f : key_of (ventry id0 ins f) = last_key id0 ins (fst (fst f)).
Proof. destruct f as [[i p] k]. reflexivity. Qed.

Lemma answers_weaken id0 ins outs o i p k outs' : (forall i' p' k', In (i', p', k') ins -> i' < i) ->
  (forall x, In x outs -> In x outs') ->
  answers id0 ins outs o -> answers id0 (ins ++ [(i, p, k)]) outs' o.
Proof.
  intros Hlt Ho (i' & p' & k' & q & H1 & H2 & H3 & H4 & H5). exists i', p', k', q.
  assert (Hi' : i' < i) by (eapply Hlt; eassumption).
  rewrite last_key_after by exact Hi'. repeat split; auto. apply in_or_app. auto.
Qed.

Lemma answers_outs id0 ins outs outs' o : (forall x, In x outs -> In x outs') ->
  answers id0 ins outs o -> answers id0 ins outs' o.
Proof. intros Ho (i' & p' & k' & q & H1 & H2 & H3 & H4 & H5). exists i', p', k', q. auto. Qed.

Lemma vreach_vinv id0 m ins outs acks : vreach id0 m ins outs acks -> vinv id0 m ins outs acks.
Proof.
  induction 1 as [|m ins outs acks id pts key R I Hlt Hid Hmax|m ins outs acks id pts key m' R I E|m ins outs acks ack id off m' R I E].
  - constructor; cbn; auto; try easy. { exists [], []. auto. } exists []. split; auto. congruence.
  - destruct I as [J1 J2 J3 J4 J5 J6 J7]. unfold video_in.
    assert (Hk : v_key m = last_key id0 ins id) by (apply J2; intros i p k Hin; specialize (Hlt i p k Hin); lia).
    assert (Hle : v_key m <= id) by (rewrite Hk; apply last_key_le; exact Hid).
    set (k := if key then id else v_key m). assert (Hkk : v_key m <= k) by (subst k; destruct key; lia).
    assert (Elk : last_key id0 (ins ++ [(id, pts, key)]) id = k).
    { rewrite last_key_app. cbn [last_key]. rewrite Z.leb_refl, andb_true_r, <- Hk. reflexivity. }
    assert (Eent : (pts, if key then (id, 0) else (k, w32 (k - id))) = ventry id0 (ins ++ [(id, pts, key)]) (id, pts, key)).
    { unfold ventry. rewrite Elk. subst k. destruct key; [|reflexivity]. rewrite Z.sub_diag. reflexivity. }
    assert (Ekey : key_of (pts, if key then (id, 0) else (k, w32 (k - id))) = k) by (subst k; destruct key; reflexivity).
    constructor; cbn [v_input v_output v_key].
    + intros i p k' Hin. apply in_app_or in Hin. destruct Hin as [Hin|[[= <- <- <-]|[]]]; eauto.
    + intros id' Hid'. rewrite <- Elk. apply last_key_same; [|exact Hid'].
      intros i p k' Hin. apply in_app_or in Hin. destruct Hin as [Hin|[[= <- <- <-]|[]]]; [|lia].
      specialize (Hlt _ _ _ Hin). lia.
    + destruct J3 as (pre & suf & -> & Ei). exists pre, (suf ++ [(id, pts, key)]). split; [apply app_assoc_reverse|].
      rewrite map_app, Ei. f_equal.
      * apply map_ext_in. intros [[i p] k'] Hin. unfold ventry. rewrite last_key_after; [reflexivity|].
        apply (Hlt i p k'). apply in_or_app. auto.
      * cbn [map]. rewrite Eent. reflexivity.
    + intros o Ho. apply (answers_weaken id0 ins outs o id pts key outs Hlt); auto.
    + rewrite map_app. cbn [map]. rewrite Ekey. rewrite !app_assoc. apply nondec_app. rewrite <- !app_assoc. split; [exact J5|].
      split; [cbn; split; [intros y []|exact Logic.I]|]. intros x y Hx [<-|[]]. specialize (J6 x Hx). lia.
    + intros x Hx. rewrite map_app in Hx. cbn [map] in Hx. rewrite Ekey in Hx. rewrite !app_assoc in Hx. apply in_app_or in Hx. destruct Hx as [Hx|[<-|[]]]; [|lia].
      rewrite <- app_assoc in Hx. specialize (J6 x Hx). lia.
    + exact J7.
  - unfold video_out in E. destruct key; [|injection E as <-; exact I].
    destruct (find_split _ (v_input m)) as [[f rest]|] eqn:Ef; [|discriminate]. injection E as <-.
    apply find_split_spec in Ef. destruct Ef as (pre & rest' & Ei & -> & Hp & _).
    destruct I as [J1 J2 J3 J4 J5 J6 J7].
    destruct J3 as (p1 & suf & Hins & Em).
    rewrite Em in Ei. symmetry in Ei.
    destruct (map_eq_app _ _ _ _ (eq_sym Ei)) as (s1 & s2 & -> & E1 & E2).
    destruct s2 as [|g s2]; [discriminate E2|]. cbn [map] in E2. injection E2 as Eg Er.
    assert (Esub : forall x, In x (map snd acks ++ map key_of (v_output m ++ [(id, snd f)]) ++ map key_of (f :: rest')) ->
                   In x (map snd acks ++ map key_of (v_output m) ++ map key_of (v_input m))).
    { intros x Hx. rewrite Em, <- Ei. rewrite map_app in Hx. rewrite map_app. cbn [map] in *.
      replace (key_of (id, snd f)) with (key_of f) in Hx by reflexivity.
      rewrite !in_app_iff in *. cbn [In] in *. tauto. }
    constructor; cbn [v_input v_output v_key]; auto.
    + exists (p1 ++ s1), (g :: s2). split; [rewrite <- app_assoc; exact Hins|]. cbn [map]. rewrite Eg, Er. reflexivity.
    + intros o Ho. apply in_app_or in Ho. destruct Ho as [Ho|[<-|[]]].
      * apply (answers_outs id0 ins outs); auto. intros x Hx. apply in_or_app. auto.
      * destruct g as [[i p] k]. cbn in Eg. rewrite <- Eg in Hp |- *. cbn in Hp.
        exists i, p, k, pts. cbn. repeat split; auto.
        -- rewrite Hins. apply in_or_app. right. apply in_or_app. right. left. reflexivity.
        -- apply in_or_app. right. left. reflexivity.
        -- unfold close. apply Z.ltb_lt. exact Hp.
    + rewrite Em, <- Ei in J5. rewrite !map_app in *. cbn [map] in *.
      replace (key_of (id, snd f)) with (key_of f) by reflexivity.
      rewrite !nondec_app in *. cbn [nondec] in *. destruct J5 as (A1 & (A2 & (A3 & (A4 & A5) & A6) & A7) & A8).
      split; [exact A1|]. split.
      * split; [|split].
        -- split; [exact A2|]. split; [split; [intros y []|exact Logic.I]|]. intros x y Hx [<-|[]]. apply A7; [exact Hx|]. apply in_or_app. right. left. reflexivity.
        -- split; assumption.
        -- intros x y Hx Hy. apply in_app_or in Hx. destruct Hx as [Hx|[<-|[]]].
           ++ apply A7; [exact Hx|]. apply in_or_app. right. exact Hy.
           ++ destruct Hy as [<-|Hy]; [lia|auto].
      * intros x y Hx Hy. apply A8; [exact Hx|]. rewrite !in_app_iff in *. cbn [In] in *. tauto.
    + destruct J7 as (pre0 & E0 & H0). exists pre0. split.
      * rewrite !map_app, E0, app_assoc. reflexivity.
      * intros Hne. destruct (H0 Hne) as (a & o & r & Ha & Eo). exists a, o, (r ++ [(id, snd f)]). rewrite Eo. auto.
  - unfold video_map in E. destruct (find_split _ (v_output m)) as [[o rest]|] eqn:Ef;
      [|destruct (v_output m); discriminate].
    injection E as <- <- <-. apply find_split_spec in Ef. destruct Ef as (pre & rest' & Eo & -> & Hp & _).
    destruct I as [J1 J2 J3 J4 J5 J6 J7]. apply Z.eqb_eq in Hp.
    constructor; cbn [v_input v_output v_key]; auto.
    + intros o' Ho'. apply J4. rewrite Eo. apply in_or_app. auto.
    + rewrite Eo in J5. rewrite !map_app in *. cbn [map snd fst] in *.
      change (fst (snd o)) with (key_of o).
      rewrite !nondec_app in *. cbn [nondec] in *. destruct J5 as (A1 & ((A2 & (A3 & A4) & A5) & A6 & A7) & A8).
      split; [split; [exact A1|split; [split; [intros y []|exact Logic.I]|]]|split; [split; [split; assumption|split; [exact A6|]]|]].
      * intros x y Hx [<-|[]]. apply A8; [exact Hx|]. rewrite !in_app_iff. cbn [In]. tauto.
      * intros x y Hx Hy. apply A7; [|exact Hy]. apply in_or_app. auto.
      * intros x y Hx Hy. apply in_app_or in Hx. destruct Hx as [Hx|[<-|[]]].
        -- apply A8; [exact Hx|]. rewrite !in_app_iff in *. tauto.
        -- apply in_app_or in Hy. destruct Hy as [Hy|Hy].
           ++ destruct Hy as [<-|Hy]; [lia|auto].
           ++ apply A7; [|exact Hy]. apply in_or_app. right. left. reflexivity.
    + intros x Hx. apply J6. rewrite Eo. rewrite !map_app in *. cbn [map snd fst] in *. change (fst (snd o)) with (key_of o) in Hx.
      rewrite !in_app_iff in *. cbn [In] in *. tauto.
    + destruct J7 as (pre0 & E0 & H0). exists (pre0 ++ map fst pre). split.
      * rewrite E0, Eo, map_app, app_assoc. reflexivity.
      * intros _. exists ack, (snd o), rest'. split; [rewrite map_app; apply in_or_app; right; left; reflexivity|].
        rewrite <- Hp. destruct o. reflexivity.
Qed.

(* the meaning of last_key, for frames with increasing ids *)
Fixpoint increasing (l : list (Z * Z * bool)) : Prop :=
  match l with
  | [] => True
  | (i, _, _) :: r => (forall j p k, In (j, p, k) r -> i < j) /\ increasing r
  end.

Lemma increasing_snoc l id pts key : increasing l -> (forall i p k, In (i, p, k) l -> i < id) ->
  increasing (l ++ [(id, pts, key)]).
Proof.
  induction l as [|[[i p] k] l IH]; intros H Hlt; cbn.
  - split; [intros j p k []|exact Logic.I].
  - destruct H as [H1 H2]. split.
    + intros j p' k' Hin. apply in_app_or in Hin. destruct Hin as [Hin|[[= <- <- <-]|[]]].
      * eapply H1; eassumption.
      * eapply (Hlt i p k). left. reflexivity.
    + apply IH; [exact H2|]. intros; eapply Hlt; right; eassumption.
Qed.

Lemma vreach_increasing id0 m ins outs acks : vreach id0 m ins outs acks -> increasing ins.
Proof.
  induction 1; auto; [exact Logic.I|]. apply increasing_snoc; assumption.
Qed.

Lemma last_key_spec id0 ins id : increasing ins -> (forall i p k, In (i, p, k) ins -> id0 <= i) ->
  (last_key id0 ins id = id0 \/ exists p, In (last_key id0 ins id, p, true) ins) /\
  id0 <= last_key id0 ins id /\
  forall j p, In (j, p, true) ins -> j <= id -> j <= last_key id0 ins id.
Proof.
  revert id0. induction ins as [|[[i p] k] ins IH]; intros id0 Hinc Hlo; cbn [last_key].
  - split; [left; reflexivity|]. split; [lia|]. intros j p [].
  - destruct Hinc as [H1 H2].
    destruct (k && (i <=? id)) eqn:Eb.
    + apply andb_true_iff in Eb. destruct Eb as [-> Ei]. apply Z.leb_le in Ei.
      destruct (IH i H2) as (A & B & C). { intros j p' k' Hin. specialize (H1 j p' k' Hin). lia. }
      assert (id0 <= i) by (apply (Hlo i p true); left; reflexivity).
      split; [|split].
      * right. destruct A as [->|[p' Hp]]; [exists p; left; reflexivity|exists p'; right; exact Hp].
      * lia.
      * intros j p' [[= <- <-]|Hin] Hj; [exact B|]. eapply C; eassumption.
    + destruct (IH id0 H2) as (A & B & C). { intros; eapply Hlo; right; eassumption. }
      split; [|split].
      * destruct A as [->|[p' Hp]]; [left; reflexivity|right; exists p'; right; exact Hp].
      * exact B.
      * intros j p' [[= <- <- ->]|Hin] Hj; [|eapply C; eassumption].
        cbn in Eb. apply Z.leb_gt in Eb. lia.
Qed.

Definition fresh_from (id0 : Z) (ins : list (Z * Z * bool)) (o : vop) : bool :=
  match o with
  | VIn id _ _ => forallb (fun f => fst (fst f) <? id) ins && (id0 <=? id) && (id <? 2 ^ 64)
  | _ => true
  end.
Fixpoint vrun_ok (id0 : Z) (ins : list (Z * Z * bool)) (ops : list vop) : bool :=
  match ops with
  | [] => true
  | o :: r => fresh_from id0 ins o &&
      vrun_ok id0 (match o with VIn id pts key => ins ++ [(id, pts, key)] | _ => ins end) r
  end.

Lemma vrun_reach id0 ops : forall m ins outs acks m' ins' outs' acks',
  vreach id0 m ins outs acks -> vrun_ok id0 ins ops = true ->
  vrun m ins outs acks ops = Some (m', ins', outs', acks') -> vreach id0 m' ins' outs' acks'.
Proof.
  induction ops as [|o ops IH]; intros m ins outs acks m' ins' outs' acks' R Hok E.
  - cbn in E. injection E as <- <- <- <-. exact R.
  - cbn [vrun_ok] in Hok. apply andb_true_iff in Hok. destruct Hok as [Hf Hok].
    destruct o as [id pts key|id pts key|id]; cbn [vrun fresh_from] in *.
    + apply andb_true_iff in Hf. destruct Hf as [Hf H3]. apply andb_true_iff in Hf. destruct Hf as [H1 H2].
      eapply IH; [|exact Hok|exact E]. apply vr_in; try lia; [exact R|].
      intros i p k Hin. rewrite forallb_forall in H1. specialize (H1 _ Hin). cbn in H1. lia.
    + destruct (video_out m id pts key) as [m2| |] eqn:Eo; try discriminate.
      eapply IH; [|exact Hok|exact E]. eapply vr_out; eassumption.
    + destruct (video_map m id) as [[[i f] m2]| |] eqn:Em; try discriminate.
      eapply IH; [|exact Hok|exact E]. eapply vr_ack; eassumption.
Qed.

Lemma split_at {A} (a b : list A) x c d : a ++ b = c ++ x :: d -> In x b \/ (exists e, d = e ++ b).
Proof.
  revert c. induction a as [|y a IH]; intros c E; cbn in E.
  - left. rewrite E. apply in_or_app. right. left. reflexivity.
  - destruct c as [|z c]; cbn in E; injection E as -> E.
    + right. exists a. auto.
    + apply (IH c E).
Qed.

Lemma areach_bound id_in id_out m din dout acks ack fid rem m' :
  0 <= id_in < 2 ^ 64 - 2 -> 0 <= id_out < 2 ^ 64 - 2 ->
  areach id_in id_out m din dout acks -> audio_map m ack = AOk (fid, rem, m') ->
  samples_before id_out dout ack <= zsum din /\ din <> [].
Proof.
  intros Hi Ho R E. destruct (areach_ainv _ _ _ _ _ _ Hi Ho R) as [[I1 I2 _ _ _ _ _] _].
  unfold audio_map in E.
  assert (Hack : h_base (a_out m) <= ack <= h_last (a_out m)).
  { unfold offset_by_frame in E. destruct (Z.ltb_spec ack (h_base (a_out m))); [discriminate|].
    destruct (Z.gtb_spec ack (h_last (a_out m))); [discriminate|]. lia. }
  destruct (hinv_offset 1 id_out (a_out m) dout ack (or_intror eq_refl) I2 Hack) as (hi & Eo). rewrite Eo in E.
  destruct (frame_by_offset _ _) eqn:Ef; try discriminate. eapply hinv_lookup_bound; eassumption.
Qed.
