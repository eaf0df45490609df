(* Runs of a channel. *)
From Coq Require Import List ZArith Bool Lia ZifyBool ZifyNat.
From Verif Require Import SegListModel SegListSpec SegListProofs SegListProofs2 SegListProofs3 TimelineModel TimelineSpec TimelineProofs TimelineProofs2 TimelineProofs3
  TimelineProofs4 TimelineProofs5 TimelineProofs6 TimelineProofs7 TimelineProofs8 TimelineProofs9 TimelineProofs10.
Import ListNotations.
Local Open Scope Z_scope.

Lemma numbered_last_max pre x : numbered (pre ++ [x]) -> forall y, In y (pre ++ [x]) -> s_index y <= s_index x.
Proof.
  intros N y I. apply in_app_or in I as [I|[->|[]]]; [|lia]. apply in_split in I as (a & b & ->). rewrite <- app_assoc in N. cbn [app] in N.
  pose proof (numbered_lt _ _ _ x N ltac:(apply in_or_app; right; left; reflexivity)). lia.
Qed.
Lemma fresh_lt h s : cinv h -> fresh h s -> forall x, In x (segs (cl_list (ch_list h))) -> s_index x < s_index s.
Proof.
  intros [CW CT CI CL] (D & [E|L] & N) x I; [rewrite E in I; destruct I|]. assert (NE : segs (cl_list (ch_list h)) <> []) by (intros Q; rewrite Q in I; destruct I).
  destruct (exists_last NE) as (pre & y & E). pose proof (CL _ _ E). pose proof (segs_numbered _ CW) as NU. rewrite E in NU, I. pose proof (numbered_last_max _ _ NU x I). lia.
Qed.

Lemma cinv_new last min next scale : cinv (new_channel last min next scale).
Proof. constructor; cbn; [apply wf_empty| |constructor|]; [intros t []|intros pre x Q; destruct pre; discriminate]. Qed.
Lemma cinv_next h n : cinv h -> cinv (set_next h n).
Proof. intros [CW CT CI CL]. constructor; assumption. Qed.
Lemma cinv_active h b : cinv h -> cinv (set_active h b).
Proof. intros [CW CT CI CL]. constructor; assumption. Qed.

Lemma reach_inv P h : reach P h -> cinv h.
Proof.
  induction 1 as [| h now na al s f h' r _ IH F E | h d h' r _ IH D E | h now i h' _ IH E | h now h' b _ IH E | h now id h' t _ IH E | h now id c mc h' _ IH _ E | h id c mc h' _ IH _ E | h id _ IH | h n _ IH N | h b _ IH].
  - apply cinv_new.
  - destruct (add_segment_ok h now na al s f IH (proj1 F) (fresh_lt _ _ IH F) (proj2 (proj2 F))) as (h1 & r1 & E1 & C1 & _). unfold add in E. rewrite E in E1. injection E1 as <- <-. exact C1.
  - destruct (update_last_segment_ok h d IH D) as (h1 & r1 & E1 & C1 & _). rewrite E in E1. injection E1 as <- <-. exact C1.
  - destruct (truncate_ok h now i IH) as (h1 & E1 & C1 & _). rewrite E in E1. injection E1 as <-. exact C1.
  - destruct (cleanup_ok h now IH) as (h1 & b1 & E1 & C1 & _). rewrite E in E1. injection E1 as <- <-. exact C1.
  - destruct (get_ok h now id IH) as [[Q _]|(t0 & h1 & t1 & _ & E1 & C1 & _)]; [congruence|]. rewrite E in E1. injection E1 as <- <-. exact C1.
  - eapply create_ok; eauto.
  - eapply update_ok; eauto.
  - apply remove_ok. exact IH.
  - apply cinv_next. exact IH.
  - apply cinv_active. exact IH.
Qed.

Lemma hist_reach h R : hist h R -> reach any h.
Proof.
  induction 1.
  - apply r_new.
  - eapply r_add; eauto.
  - eapply r_update_last; eauto.
  - eapply r_truncate; eauto.
  - eapply r_cleanup; eauto.
  - eapply r_get; eauto.
  - eapply r_create; eauto. exact Logic.I.
  - eapply r_update; eauto. exact Logic.I.
  - eapply r_remove; eauto.
  - eapply r_next; eauto.
  - eapply r_active; eauto.
Qed.

Lemma seen h id t : cinv h -> find_tl id (ch_tls h) = Some t ->
  In t (ch_tls h) /\ t_id t = id /\ exists V MV, st (ch_list h) t V MV /\ lt_ok t V /\ tl_view (ch_list h) t = Some V /\ m_view (ch_list h) t = Some (map v_segs MV).
Proof.
  intros CV F. destruct (find_in _ _ _ F) as [I E]. split; [exact I|]. split; [exact E|]. destruct (ci_tls _ CV t I) as (V & MV & S & L & D). exists V, MV. split; [exact S|]. split; [exact L|].
  split; [apply tl_view_ok; [apply CV|apply S]|]. eapply m_view_ok; [apply CV|exact S].
Qed.
Lemma seen_at h t V MV : cinv h -> st (ch_list h) t V MV -> tl_view (ch_list h) t = Some V /\ m_view (ch_list h) t = Some (map v_segs MV).
Proof. intros CV S. split; [apply tl_view_ok; [apply CV|apply S]|]. eapply m_view_ok; [apply CV|exact S]. Qed.

Lemma concat_segs MV : concat (map v_segs MV) = flat MV.
Proof. unfold flat. rewrite flat_map_concat_map. reflexivity. Qed.

Lemma Forall2_find (R : timeline -> timeline -> Prop) a b id : Forall2 R a b -> (forall x y, R x y -> t_id y = t_id x) ->
  match find_tl id a with Some t => exists t', find_tl id b = Some t' /\ R t t' | None => find_tl id b = None end.
Proof.
  intros F H. induction F as [|x y a b Q _ IH]; [reflexivity|]. cbn [find_tl]. rewrite (H _ _ Q). destruct (Nat.eqb (t_id x) id); [exists y; auto|exact IH].
Qed.
Lemma Forall2_find_fst (R : timeline -> timeline * bool -> Prop) a res id : Forall2 R a res -> (forall x y, R x y -> t_id (fst y) = t_id x) ->
  match find_tl id a with Some t => exists t' e, find_tl id (map fst res) = Some t' /\ In (t', e) res /\ R t (t', e) | None => find_tl id (map fst res) = None end.
Proof.
  intros F H. induction F as [|x y a b Q _ IH]; [reflexivity|]. cbn [find_tl map]. rewrite (H _ _ Q). destruct (Nat.eqb (t_id x) id).
  - exists (fst y), (snd y). split; [reflexivity|]. split; [left; apply surjective_pairing|]. rewrite <- surjective_pairing. exact Q.
  - destruct (find_tl id a) as [t|]; [|exact IH]. destruct IH as (t' & e & A & B & C). exists t', e. split; [exact A|]. split; [right; exact B|exact C].
Qed.

(* the manifest is the end of the timeline *)
Lemma popn_app k V1 v V2 pre ss : nonempty (V1 ++ v :: V2) -> v_segs v = pre ++ ss -> ss <> [] -> k = (length (flat V1) + length pre)%nat ->
  popn k (V1 ++ v :: V2) = mk_pv (v_start v) (v_corr v) ss :: V2.
Proof.
  revert k. induction V1 as [|u V1 IH]; intros k NE E NS ->.
  - cbn [app flat flat_map length Nat.add]. clear NE. destruct v as [vs vc vl]. cbn [v_segs v_start v_corr] in *. revert vl E. induction pre as [|x pre IHp]; intros vl E.
    + cbn in *. subst. reflexivity.
    + cbn [length popn pop1 v_segs]. rewrite E. cbn [app]. destruct (pre ++ ss) as [|z zs] eqn:Q; [apply app_eq_nil in Q as [_ Q]; contradiction|].
      cbn [v_start v_corr]. apply IHp. reflexivity.
  - cbn [app] in *. inversion NE as [|? ? NU NE2]; subst. destruct u as [us uc ul]. cbn [v_segs] in NU. change (flat (mk_pv us uc ul :: V1)) with (ul ++ flat V1). rewrite app_length.
    clear NE. revert us NU. induction ul as [|x [|y ul] IHu]; intros us NU; [contradiction| |].
    + cbn [length Nat.add popn pop1 v_segs]. apply IH; auto.
    + specialize (IHu us ltac:(discriminate)). cbn [length Nat.add popn pop1 v_segs v_start v_corr] in *. exact IHu.
Qed.

Lemma popn_all V k : nonempty V -> (length (flat V) <= k)%nat -> popn k V = [].
Proof.
  intros NE L. pose proof (flat_popn k V NE) as F. rewrite skipn_all2 in F by lia. destruct (popn k V) as [|v r] eqn:E; [reflexivity|].
  pose proof (nonempty_popn k V NE) as N. rewrite E in N. inversion N as [|? ? Q _]; subst. unfold flat in F. cbn in F. apply app_eq_nil in F as [F _]. contradiction.
Qed.

Lemma m_suffix c t V MV : st c t V MV -> (length (flat MV) <= length (flat V))%nat /\ map v_segs MV = map v_segs (popn (length (flat V) - length (flat MV)) V).
Proof.
  intros [T M]. pose proof (tok_nonempty _ _ _ T) as NE. destruct MV as [|mv V2].
  - cbn [flat flat_map length map]. split; [lia|]. rewrite popn_all; [reflexivity|exact NE|lia].
  - destruct M as (_ & _ & _ & P1 & p & P2 & V1 & v & pre & EP & EV & L & E & NS & _). subst V.
    assert (LE : length (flat (V1 ++ v :: V2)) = (length (flat V1) + length pre + length (flat (mv :: V2)))%nat).
    { unfold flat. rewrite flat_map_app. cbn [flat_map]. rewrite !app_length, E, app_length. lia. }
    split; [lia|]. rewrite LE. replace (_ + _ - _)%nat with (length (flat V1) + length pre)%nat by lia.
    rewrite (popn_app _ V1 v V2 pre (v_segs mv) NE E NS eq_refl). reflexivity.
Qed.


Lemma put_flat_all V s force corr : flat (put V s (force || breaks V s) corr) = flat V ++ [s].
Proof. apply put_flat. intros Q ->. rewrite (breaks_nil [] s eq_refl), orb_true_r in Q. discriminate. Qed.

Lemma mput_flat MV s newp corr : flat (mput MV s newp corr) = flat MV ++ [s].
Proof.
  unfold mput. destruct MV as [|m MV]; [reflexivity|]. apply put_flat. intros _ Q. discriminate.
Qed.
Lemma mput_nonempty MV s newp corr : nonempty MV -> nonempty (mput MV s newp corr).
Proof.
  intros NE. unfold mput. destruct MV as [|m MV]; [constructor; [discriminate|constructor]|]. unfold put. destruct newp; [apply Forall_app; split; [exact NE|constructor; [discriminate|constructor]]|].
  clear - NE. revert m NE. induction MV as [|x MV IH]; intros m NE; inversion NE; subst.
  - cbn [grow]. constructor; [cbn; intros Q; apply app_eq_nil in Q as [_ Q]; discriminate|constructor].
  - cbn [grow]. constructor; [assumption|]. apply IH. assumption.
Qed.
Lemma grow_len V s : V <> [] -> len (grow V s) = len V.
Proof.
  induction V as [|v V IH]; intros NE; [contradiction|]. destruct V as [|w V]; [reflexivity|]. change (grow (v :: w :: V) s) with (v :: grow (w :: V) s).
  rewrite !(len_cons v). rewrite IH by discriminate. reflexivity.
Qed.
Lemma mput_len MV s newp corr : len (mput MV s newp corr) = len MV + (if newp || match MV with [] => true | _ => false end then 1 else 0).
Proof.
  unfold mput. destruct MV as [|m MV]; [rewrite orb_true_r; reflexivity|]. rewrite orb_false_r. unfold put. destruct newp; [rewrite len_app; reflexivity|]. rewrite grow_len by discriminate. lia.
Qed.

(* --- what is kept --- *)
Lemma trim_le f l : (trim f l <= length l)%nat.
Proof. induction l as [|x l IH]; cbn [trim length]; [lia|]. destruct (f (x :: l)); lia. Qed.
Lemma trim_spec f l : (skipn (trim f l) l = [] \/ f (skipn (trim f l) l) = true) /\ forall j, (j < trim f l)%nat -> f (skipn j l) = false.
Proof.
  induction l as [|x l [IH1 IH2]]; [split; [left; reflexivity|cbn; lia]|]. cbn [trim]. destruct (f (x :: l)) eqn:E; [split; [right; exact E|lia]|].
  split; [exact IH1|]. intros [|j] L; [exact E|]. cbn [skipn]. apply IH2. lia.
Qed.
Lemma trim_keeps f l : l <> [] -> (forall s q, l = q ++ [s] -> f [s] = true) -> (trim f l < length l)%nat.
Proof.
  intros NE H. destruct (exists_last NE) as (q & s & ->). specialize (H s q eq_refl). clear NE. rewrite app_length. cbn [length]. induction q as [|x q IH].
  - cbn [app trim]. rewrite H. cbn. lia.
  - cbn [app trim length]. destruct (f (x :: q ++ [s])); lia.
Qed.
