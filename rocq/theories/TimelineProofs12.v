(* What a timeline shows, from what happened to it. *)
From Coq Require Import List ZArith Bool Lia ZifyBool ZifyNat.
From Verif Require Import SegListModel SegListSpec SegListProofs SegListProofs2 SegListProofs3 TimelineModel TimelineSpec TimelineProofs TimelineProofs2 TimelineProofs3
  TimelineProofs4 TimelineProofs5 TimelineProofs6 TimelineProofs7 TimelineProofs8 TimelineProofs9 TimelineProofs10 TimelineProofs11.
Import ListNotations.
Local Open Scope Z_scope.

Lemma skipn_app_le {A} k (a b : list A) : (k <= length a)%nat -> skipn k (a ++ b) = skipn k a ++ b.
Proof. intros L. rewrite skipn_app. replace (k - length a)%nat with O by lia. reflexivity. Qed.
Lemma skipn_skipn' {A} j k (l : list A) : skipn j (skipn k l) = skipn (k + j) l.
Proof. revert l. induction k as [|k IH]; intros l; [reflexivity|]. destruct l as [|x l]; [rewrite !skipn_nil; reflexivity|]. cbn [Nat.add skipn]. apply IH. Qed.
Lemma skipn_snoc_cases {A} k (a : list A) x : (k <= length a)%nat -> forall j, exists k', skipn j (skipn k a ++ [x]) = skipn k' (a ++ [x]).
Proof. intros L j. exists (k + j)%nat. rewrite <- skipn_app_le by exact L. apply skipn_skipn'. Qed.

(* the end of a list *)
Definition tail_of {A} (a l : list A) : Prop := exists p, l = p ++ a.
Lemma tail_refl {A} (l : list A) : tail_of l l.
Proof. exists []. reflexivity. Qed.
Lemma tail_skip {A} k (a l : list A) : tail_of a l -> tail_of (skipn k a) l.
Proof. intros (p & ->). exists (p ++ firstn k a). rewrite <- app_assoc, firstn_skipn. reflexivity. Qed.
Lemma tail_snoc {A} (a l : list A) x : tail_of a l -> tail_of (a ++ [x]) (l ++ [x]).
Proof. intros (p & ->). exists p. rewrite <- app_assoc. reflexivity. Qed.
Lemma tail_trans {A} (a b l : list A) : tail_of a b -> tail_of b l -> tail_of a l.
Proof. intros (p & ->) (q & ->). exists (q ++ p). rewrite <- app_assoc. reflexivity. Qed.
Lemma tail_nil {A} (l : list A) : tail_of [] l.
Proof. exists l. rewrite app_nil_r. reflexivity. Qed.

Lemma sld_app a s d : set_last_dur (a ++ [s]) d = a ++ [mk_seg (s_index s) (s_time s) d].
Proof. apply sld_snoc. Qed.
Lemma sld_len l d : length (set_last_dur l d) = length l.
Proof. destruct l as [|x l]; [reflexivity|]. destruct (@exists_last _ (x :: l) ltac:(discriminate)) as (q & s & ->). rewrite sld_app, !app_length. reflexivity. Qed.
Lemma flat_set_last V d : nonempty V -> flat (set_last V d) = set_last_dur (flat V) d.
Proof.
  intros NE. destruct V as [|v V]; [reflexivity|]. destruct (@exists_last _ (v :: V) ltac:(discriminate)) as (q & w & E). rewrite E in *.
  rewrite set_last_snoc, !flat_snoc. cbn [v_segs]. apply Forall_app in NE as [_ NE]. inversion NE as [|? ? N _]; subst. destruct (exists_last N) as (p & x & ->).
  rewrite sld_app, !app_assoc, sld_app. reflexivity.
Qed.
Lemma tail_sld a l d : a <> [] -> tail_of a l -> tail_of (set_last_dur a d) (set_last_dur l d).
Proof. intros NE (p & ->). destruct (exists_last NE) as (q & x & ->). rewrite app_assoc, !sld_app. exists p. rewrite <- app_assoc. reflexivity. Qed.

Definition told (c : chlist) (t : timeline) (r : record) : Prop :=
  exists V MV, st c t V MV /\ tail_of (flat V) (r_log r) /\ (r_shown r = true -> m_seq (t_m t) = r_first r + len (r_log r)).

Lemma told_cut c c' t t' r : (forall V MV, st c t V MV -> exists k k', cut c' t k k' V MV t') -> told c t r -> told c' t' r.
Proof.
  intros H (V & MV & S & L & Q). destruct (H V MV S) as (j & j' & S' & K & _). exists (popn j V), (popn j' MV). split; [exact S'|]. split.
  - rewrite flat_popn by (eapply tok_nonempty; apply S). apply tail_skip. exact L.
  - intros B. rewrite <- (Q B). apply K.
Qed.

Lemma shows_ok h id t V MV : cinv h -> find_tl id (ch_tls h) = Some t -> st (ch_list h) t V MV -> shows h id = match MV with [] => false | _ => true end.
Proof. intros CV F S. unfold shows. rewrite F. rewrite (proj2 (seen_at h t V MV CV S)). destruct MV; reflexivity. Qed.

Lemma hist_told h R : hist h R -> forall id t, find_tl id (ch_tls h) = Some t -> told (ch_list h) t (R id).
Proof.
  induction 1 as [last mi nx sc R | h R now na al s f h' r HH IH F E NR | h R d h' HH IH D E | h R now i h' HH IH E | h R now h' b HH IH E | h R now id0 h' t0 HH IH E | h R now id0 c mc h' HH IH E | h R id0 c mc h' HH IH E | h R id0 HH IH | h R n HH IH N | h R b HH IH]; intros id t' F'.
  - discriminate F'.
  - pose proof (reach_inv _ _ (hist_reach _ _ HH)) as CV.
    destruct (add_segment_ok h now na al s f CV (proj1 F) (fresh_lt _ _ CV F) (proj2 (proj2 F))) as (h1 & r1 & E1 & C1 & _ & K). unfold add in E. rewrite E in E1. injection E1 as <- <-.
    destruct (K NR) as (_ & _ & _ & _ & _ & (res & ER & FR & _) & _). unfold took.
    pose proof (Forall2_find_fst _ _ _ id FR ltac:(intros ? ? Q; apply Q)) as FF. rewrite <- ER in FF.
    destruct (find_tl id (ch_tls h)) as [t|] eqn:FT; [|congruence]. destruct FF as (t2 & e & F2 & _ & (_ & A)). rewrite F' in F2. injection F2 as <-. cbn [fst snd] in A.
    destruct (seen h id t CV FT) as (_ & _ & _). destruct (IH id t FT) as (V & MV & S & L & Q).
    destruct (ci_tls _ CV t (proj1 (find_in _ _ _ FT))) as (V0 & MV0 & S0 & LT & _). pose proof (st_unique _ _ _ _ _ _ (ci_wf _ CV) S0 S) as ->. clear S0 MV0.
    destruct (A V MV S LT) as (V' & MV' & alloc & S' & _ & O). pose proof (shows_ok h' id t' V' MV' C1 F' S') as SH. pose proof (tok_nonempty _ _ _ (proj1 S)) as NE.
    exists V', MV'. split; [exact S'|]. inversion O; subst.
    + match goal with HT : takes t _ = false |- _ => rewrite HT end. split; [rewrite flat_popn by exact NE; apply tail_skip; exact L|].
      intros B. rewrite <- (Q B). match goal with HS : same_static _ _ |- _ => apply HS end.
    + match goal with HT : takes t _ = true |- _ => rewrite HT end. cbn [r_log r_first r_shown]. split.
      * match goal with |- tail_of (flat (popn ?k ?W)) _ => assert (NW : nonempty W) end.
        { unfold V1, put. unfold newp. destruct (f || breaks V s) eqn:NP; [apply Forall_app; split; [exact NE|constructor; [discriminate|constructor]]|].
          destruct V as [|v V]; [rewrite (breaks_nil [] s eq_refl), orb_true_r in NP; discriminate|]. apply (mput_nonempty (v :: V) s false 0). exact NE. }
        rewrite flat_popn by exact NW. apply tail_skip. unfold V1, newp. rewrite put_flat_all. apply tail_snoc. exact L.
      * intros B. apply andb_prop in B as [B B2]. rewrite SH in B2. match goal with HM : m_seq (t_m t') = _ |- _ => rewrite HM end.
        rewrite (Q B), len_app. change (len [s]) with 1. destruct (popn _ MV1); [discriminate|]. lia.
  - pose proof (reach_inv _ _ (hist_reach _ _ HH)) as CV. destruct (update_last_segment_ok h d CV D) as (h1 & r1 & E1 & C1 & _ & K). rewrite E in E1. injection E1 as <- <-.
    destruct (K eq_refl) as (_ & _ & _ & FR & _). pose proof (Forall2_find _ _ _ id FR ltac:(intros ? ? Q; apply Q)) as FF. destruct (find_tl id (ch_tls h)) as [t|] eqn:FT; [|congruence].
    destruct FF as (t2 & F2 & (_ & _ & _ & A)). rewrite F' in F2. injection F2 as <-. destruct (IH id t FT) as (V & MV & S & L & Q). specialize (A V MV S). pose proof (tok_nonempty _ _ _ (proj1 S)) as NE.
    assert (TI : r_first (timed h d R id) = r_first (R id) /\ r_shown (timed h d R id) = r_shown (R id) /\ len (r_log (timed h d R id)) = len (r_log (R id))).
    { unfold timed. destruct (unsnoc (r_log (R id))) as [[p x]|]; [|auto]. destruct (s_index x =? ch_last h); [|auto]. cbn. unfold len. rewrite sld_len. auto. }
    destruct TI as (T1 & T2 & T3). unfold told. rewrite T1, T2, T3. unfold ends_at in A. destruct (unsnoc (flat V)) as [[q x]|] eqn:U.
    + pose proof (unsnoc_some _ _ _ U) as EF. assert (UL : exists p, r_log (R id) = p ++ [x]) by (destruct L as (p & ->); exists (p ++ q); rewrite EF, app_assoc; reflexivity).
      destruct UL as (p & UL). unfold timed. rewrite UL, unsnoc_snoc. destruct (s_index x =? ch_last h) eqn:QX.
      * destruct A as (S' & _ & M). exists (set_last V d), (set_last MV d). split; [exact S'|]. cbn [r_log]. split.
        -- rewrite flat_set_last by exact NE. apply tail_sld; [rewrite EF; destruct q; discriminate|]. rewrite <- UL. exact L.
        -- intros B. rewrite UL in Q. rewrite <- (Q B). destruct MV; [rewrite M; reflexivity|apply M].
      * destruct A as [-> S']. exists V, MV. split; [exact S'|]. split; [exact L|]. rewrite UL in Q. exact Q.
    + destruct A as [-> S']. exists V, MV. split; [exact S'|]. split; [|exact Q]. assert (EF : flat V = []) by (destruct (flat V) as [|y z] eqn:EF; [reflexivity|]; destruct (@exists_last _ (y :: z) ltac:(discriminate)) as (a & b & E3); rewrite E3, unsnoc_snoc in U; discriminate).
      rewrite EF. apply tail_nil.
  - pose proof (reach_inv _ _ (hist_reach _ _ HH)) as CV. destruct (truncate_ok h now i CV) as (h1 & E1 & C1 & EL & FR & _). rewrite E in E1. injection E1 as <-.
    pose proof (Forall2_find _ _ _ id FR ltac:(intros ? ? Q; apply Q)) as FF. destruct (find_tl id (ch_tls h)) as [t|] eqn:FT; [|congruence].
    destruct FF as (t2 & F2 & (_ & A)). rewrite F' in F2. injection F2 as <-. rewrite EL. destruct (IH id t FT) as (V & MV & S & L & Q). specialize (A V MV S).
    destruct (c_no_trunc (t_conf t)); [subst; exists V, MV; auto|]. destruct A as (S' & K & _). eexists _, _. split; [exact S'|]. split.
    + rewrite flat_popn by (eapply tok_nonempty; apply S). apply tail_skip. exact L.
    + intros B. rewrite <- (Q B). apply K.
  - pose proof (reach_inv _ _ (hist_reach _ _ HH)) as CV. destruct (cleanup_ok h now CV) as (h1 & b1 & E1 & C1 & KA & KI). rewrite E in E1. injection E1 as <- <-.
    destruct (ch_active h) eqn:AC; [destruct (KA eq_refl) as [-> _]; apply IH; exact F'|]. destruct (KI eq_refl) as (FR & _).
    pose proof (Forall2_find _ _ _ id FR ltac:(intros ? ? Q; apply Q)) as FF. destruct (find_tl id (ch_tls h)) as [t|] eqn:FT; [|congruence].
    destruct FF as (t2 & F2 & (_ & A)). rewrite F' in F2. injection F2 as <-. eapply (told_cut _ _ t); [|apply IH; exact FT].
    intros V MV S. destruct (A V MV S) as (k & k' & Q & _). exists k, k'. exact Q.
  - pose proof (reach_inv _ _ (hist_reach _ _ HH)) as CV. destruct (get_ok h now id0 CV) as [[Q _]|(t1 & h1 & t2 & FT & E1 & C1 & EL & F2 & I2 & OT & A)]; [congruence|].
    rewrite E in E1. injection E1 as <- <-. rewrite EL. destruct (Nat.eq_dec id id0) as [->|NI]; [|rewrite (OT _ NI) in F'; apply IH; exact F'].
    rewrite F' in F2. injection F2 as <-. destruct (c_active (t_conf t1) && ch_active h); [destruct A as [-> ->]; apply IH; exact F'|].
    eapply (told_cut _ _ t1); [|apply IH; exact FT]. intros V MV S. destruct (A V MV S) as (k & k' & Q & _). exists k, k'. exact Q.
  - unfold create in E. destruct (conf_validate c mc) as [[c1 mc1]|]; [|discriminate]. destruct (find_tl id0 (ch_tls h)) eqn:FN; [discriminate|]. injection E as <-.
    cbn [set_tls ch_list ch_tls] in *. unfold begun. destruct (Nat.eqb id id0) eqn:QI.
    + apply Nat.eqb_eq in QI. subst id0. assert (t' = new_tl id (if c_end c1 <=? ch_middle h then deactivate c1 else c1) mc1 (ch_next h) now) as ->.
      { clear - F' FN. induction (ch_tls h) as [|x l IHl]; cbn [app find_tl] in *; [cbn in F'; rewrite Nat.eqb_refl in F'; congruence|]. destruct (Nat.eqb (t_id x) id); [discriminate|]. apply IHl; assumption. }
      destruct (new_good (ch_list h) 0 id (if c_end c1 <=? ch_middle h then deactivate c1 else c1) mc1 (ch_next h) now) as (V & MV & S & _). exists V, MV. split; [exact S|]. cbn [r_log r_first r_shown].
      pose proof (tok_nil _ _ _ (proj1 S) eq_refl) as ->. split; [apply tail_nil|]. intros _. cbn. unfold len. cbn. lia.
    + apply IH. clear - F' QI. induction (ch_tls h) as [|x l IHl]; cbn [app find_tl] in *; [cbn in F'; rewrite Nat.eqb_sym, QI in F'; discriminate|]. destruct (Nat.eqb (t_id x) id); [exact F'|]. apply IHl. exact F'.
  - unfold update in E. destruct (conf_validate c mc) as [[c1 mc1]|]; [|discriminate]. destruct (find_tl id0 (ch_tls h)) as [t|] eqn:FT; [|discriminate]. injection E as <-.
    cbn [set_tls ch_list ch_tls] in *. rewrite find_put in F'. cbn [set_conf t_id] in F'. destruct (find_in _ _ _ FT) as [_ EI]. rewrite EI in F'. destruct (Nat.eqb id id0) eqn:QI; [|apply IH; exact F'].
    apply Nat.eqb_eq in QI. subst id. rewrite FT in F'. cbn in F'. injection F' as <-. destruct (IH id0 t FT) as (V & MV & S & L & Q). exists V, MV. split; [apply set_conf_st; exact S|]. auto.
  - apply IH. cbn [remove set_tls ch_tls] in F'. clear - F'. induction (ch_tls h) as [|x l IHl]; [discriminate|]. cbn [filter] in F'. cbn [find_tl]. destruct (Nat.eqb (t_id x) id0) eqn:B; cbn [negb] in F'.
    + destruct (Nat.eqb (t_id x) id) eqn:B2; [|apply IHl; exact F']. exfalso. apply Nat.eqb_eq in B, B2. rewrite B2 in B. subst id0. destruct (find_in _ _ _ F') as [I1 I2]. apply filter_In in I1 as [_ I1]. rewrite I2, Nat.eqb_refl in I1. discriminate.
    + cbn [find_tl] in F'. destruct (Nat.eqb (t_id x) id); [exact F'|apply IHl; exact F'].
  - apply IH. exact F'.
  - apply IH. exact F'.
Qed.
