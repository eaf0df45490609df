From Coq Require Import ZArith List Bool Lia ZifyBool.
From Verif Require Import Lists Bytes Fmp4Model Fmp4Spec Fmp4Proofs Fmp4Proofs2 Fmp4Proofs3 Fmp4Proofs4 Fmp4Proofs5.
Import ListNotations.
Open Scope Z_scope.

(* ------------------------------------------------------------------ *)
(* The interleaving                                                     *)

(* What choose gives: q is at least a quarter of the scales. *)
Lemma choose_min sel q l : forall i best c,
  (forall u, In u l -> 0 <= u_scale u / 4 <= q /\ 0 <= u_next u < 2 ^ 63) -> 0 <= q < 2 ^ 62 ->
  choose sel i l best = Some c ->
  exists C,
    ((exists k u, c = (i + k)%nat /\ nth_error l k = Some u /\ C = u_next u) \/
     (exists m, best = Some (c, m) /\ C = m)) /\
    (forall b m, best = Some (b, m) -> C <= m + q * Z.max 0 (zlen l - 1)) /\
    (forall u, In u l -> u_left u <> [] -> C <= u_next u + q * match best with Some _ => Z.max 0 (zlen l - 1) | None => zlen l - 1 end).
Proof.
  induction l as [|u l IH]; intros i best c Hu Hq H; cbn [choose] in H.
  - destruct best as [[b m]|]; [|discriminate]. injection H as <-. exists m.
    split; [right; eauto|]. split; [|intros u []]. intros b' m' E. injection E as <- <-.
    change (zlen (@nil stream)) with 0. lia.
  - pose proof (zlen_nonneg l). rewrite zlen_cons.
    assert (Hu' : forall v, In v l -> 0 <= u_scale v / 4 <= q /\ 0 <= u_next v < 2 ^ 63) by (intros; apply Hu; now right).
    destruct (Hu u (or_introl eq_refl)) as (Hs & Hn).
    destruct (u_left u) as [|f0 r0] eqn:El.
    + destruct (IH _ _ _ Hu' Hq H) as (C & W & B & F). exists C. split; [|split].
      * destruct W as [(k & v & -> & N & E)|W]; [left; exists (S k), v; split; [lia|auto]|auto].
      * intros b m E. specialize (B b m E). nia.
      * intros v [<-|I] Lv; [congruence|]. specialize (F v I Lv). destruct best; nia.
    + set (better := match best with Some (_, m) => u_next u <? m | None => true end) in H.
      set (m := if match sel with Some j => Nat.eqb j i | None => false end then u_next u else u64 (u_next u + u_scale u / 4)) in H.
      assert (Hm : u_next u <= m <= u_next u + q).
      { unfold m, u64. destruct (match sel with Some j => Nat.eqb j i | None => false end); [lia|].
        rewrite Z.mod_small by lia. lia. }
      destruct better eqn:Eb.
      * destruct (IH _ _ _ Hu' Hq H) as (C & W & B & F).
        (* the chosen one: either in l, or u itself *)
        destruct W as [(k & v & -> & N & E)|(m' & E & EC)].
        -- exists C. assert (I : In v l) by (eapply nth_error_In; eauto).
           assert (Zl : 1 <= zlen l) by (destruct l; [destruct I|rewrite zlen_cons; pose proof (zlen_nonneg l); lia]).
           specialize (B i m eq_refl). split; [left; exists (S k), v; split; [lia|auto]|]. split.
           ++ intros b mb Eb'. unfold better in Eb. rewrite Eb' in Eb. nia.
           ++ intros v' [<-|I'] Lv'.
              ** destruct best; nia.
              ** specialize (F v' I' Lv'). destruct best; nia.
        -- injection E as <- <-. exists (u_next u). split; [left; exists 0%nat, u; split; [lia|auto]|]. split.
           ++ intros b mb Eb'. unfold better in Eb. rewrite Eb' in Eb. nia.
           ++ intros v' [<-|I'] Lv'; [destruct best; nia|]. specialize (F v' I' Lv'). subst C. destruct best; nia.
      * destruct best as [[b mb]|]; [|discriminate Eb]. unfold better in Eb.
        destruct (IH _ _ _ Hu' Hq H) as (C & W & B & F). exists C. specialize (B b mb eq_refl). split; [|split].
        -- destruct W as [(k & v & -> & N & E)|W]; [left; exists (S k), v; split; [lia|auto]|auto].
        -- intros b' m' E. injection E as <- <-. nia.
        -- intros v [<-|I] Lv; [nia|]. specialize (F v I Lv). nia.
Qed.

Lemma durations_cons f l : durations (f :: l) = f_dur f + durations l.
Proof. reflexivity. Qed.

(* us are the streams after the frames done. *)
Lemma order_near q fuel : forall sel us,
  0 <= q < 2 ^ 62 ->
  (forall i u, nth_error us i = Some u -> 0 <= u_scale u / 4 <= q /\ 0 <= u_next u /\
     Forall (fun f => 0 <= f_dur f) (u_left u) /\ u_next u + durations (u_left u) < 2 ^ 63) ->
  forall A i f B, order fuel sel us = A ++ (i, f) :: B ->
  forall j ui uj, nth_error us i = Some ui -> nth_error us j = Some uj -> (exists g, In (j, g) B) ->
  u_next ui + durations (of i A) <= u_next uj + durations (of j A) + q * (zlen us - 1).
Proof.
  assert (Dn : forall l, Forall (fun f => 0 <= f_dur f) l -> 0 <= durations l).
  { induction 1; [cbn; lia|]. rewrite durations_cons. lia. }
  induction fuel as [|fuel IH]; intros sel us Hq Hu A i f B H j ui uj Ni Nj Ij; cbn [order] in H.
  { destruct A; discriminate. }
  destruct (choose sel 0 us None) as [c|] eqn:Ec; [|destruct A; discriminate].
  destruct (nth_error us c) as [u|] eqn:Nc; [|destruct A; discriminate].
  assert (Lc : (c < length us)%nat) by (apply nth_error_Some; congruence).
  unfold take in H. destruct (u_left u) as [|f0 l] eqn:El; [destruct A; discriminate|].
  destruct (Hu c u Nc) as (Hs & Hn & Hf & Hd). rewrite El in Hf, Hd. apply Forall_cons_iff in Hf. destruct Hf as (Hf0 & Hf).
  rewrite durations_cons in Hd. pose proof (Dn l Hf).
  assert (Ln : u64 (u_next u + f_dur f0) = u_next u + f_dur f0) by (unfold u64; apply Z.mod_small; lia).
  rewrite Ln in H.
  assert (Hu' : forall k v, nth_error (set_nth us c (Stream (u_scale u) (u_next u + f_dur f0) l)) k = Some v ->
     0 <= u_scale v / 4 <= q /\ 0 <= u_next v /\
     Forall (fun f => 0 <= f_dur f) (u_left v) /\ u_next v + durations (u_left v) < 2 ^ 63).
  { intros k v Nk. destruct (Nat.eq_dec c k) as [<-|D].
    - rewrite (nth_error_set_nth_eq _ _ _ Lc) in Nk. injection Nk as <-. cbn [u_scale u_next u_left].
      repeat split; auto; lia.
    - rewrite nth_error_set_nth_neq in Nk by auto. exact (Hu k v Nk). }
  destruct A as [|[a g] A].
  - cbn [app] in H. injection H as -> -> E. change (of i []) with (@nil fr). change (of j []) with (@nil fr).
    change (durations []) with 0. rewrite !Z.add_0_r.
    assert (Lj : u_left uj <> []).
    { destruct Ij as (g & Ig). rewrite <- E in Ig.
      (* a frame of j is taken later *)
      assert (T : forall fuel sel us j uj g, nth_error us j = Some uj -> In (j, g) (order fuel sel us) -> u_left uj <> []).
      { clear. induction fuel as [|fuel IHf]; intros sel us j uj g N I; cbn [order] in I; [destruct I|].
        destruct (choose sel 0 us None) as [c|] eqn:Ec; [|destruct I].
        destruct (nth_error us c) as [u|] eqn:Nc; [|destruct I].
        unfold take in I. destruct (u_left u) as [|f0 l] eqn:El; [destruct I|].
        destruct I as [I|I].
        - injection I as -> ->. congruence.
        - destruct (Nat.eq_dec c j) as [<-|D]; [congruence|].
          eapply IHf; [|exact I]. rewrite nth_error_set_nth_neq by auto. exact N. }
      destruct (Nat.eq_dec i j) as [<-|D]; [congruence|].
      eapply T; [|exact Ig]. rewrite nth_error_set_nth_neq by auto. exact Nj. }
    destruct (choose_min sel q us 0 None i) as (C & W & _ & F); auto.
    { intros v I. apply In_nth_error in I. destruct I as (k & Nk). destruct (Hu k v Nk) as (X1 & X2 & X3 & X4).
      pose proof (Dn _ X3). lia. }
    destruct W as [(k & v & Ek & N & ->)|(m & E' & _)]; [|discriminate].
    cbn [Nat.add] in Ek. subst k. rewrite N in Ni. injection Ni as <-.
    apply F; [eapply nth_error_In; eauto|exact Lj].
  - cbn [app] in H. injection H as <- <- E.
    destruct (nth_error (set_nth us c (Stream (u_scale u) (u_next u + f_dur f0) l)) i) as [vi|] eqn:Vi.
    2:{ apply nth_error_None in Vi. rewrite set_nth_length in Vi. apply nth_error_None in Vi. congruence. }
    destruct (nth_error (set_nth us c (Stream (u_scale u) (u_next u + f_dur f0) l)) j) as [vj|] eqn:Vj.
    2:{ apply nth_error_None in Vj. rewrite set_nth_length in Vj. apply nth_error_None in Vj. congruence. }
    pose proof (IH _ _ Hq Hu' _ _ _ _ E j vi vj Vi Vj Ij) as R.
    assert (G : forall k w v, nth_error us k = Some w ->
      nth_error (set_nth us c (Stream (u_scale u) (u_next u + f_dur f0) l)) k = Some v ->
      u_next w + durations (of k ((c, f0) :: A)) = u_next v + durations (of k A)).
    { intros k w v Nk Vk. rewrite of_cons. destruct (Nat.eqb_spec c k) as [<-|D].
      - rewrite (nth_error_set_nth_eq _ _ _ Lc) in Vk. injection Vk as <-. rewrite Nc in Nk. injection Nk as <-.
        cbn [app u_next]. rewrite durations_cons. lia.
      - rewrite nth_error_set_nth_neq in Vk by auto. cbn [app]. congruence. }
    rewrite (G i ui vi Ni Vi), (G j uj vj Nj Vj). unfold zlen in R. rewrite set_nth_length in R. exact R.
Qed.

Lemma frames_near q s : 0 <= q < 2 ^ 62 ->
  Forall (fun t => 0 <= t_scale t / 4 <= q /\ 0 <= t_dts t /\
    Forall (fun f => 0 <= f_dur f) (t_frames t) /\ t_dts t + durations (t_frames t) < 2 ^ 63) (s_tracks s) ->
  forall A i f B, frames_of s = A ++ (i, f) :: B ->
  forall j ti tj, nth_error (s_tracks s) i = Some ti -> nth_error (s_tracks s) j = Some tj ->
  (exists g, In (j, g) B) ->
  t_dts ti + durations (of i A) <= t_dts tj + durations (of j A) + q * (zlen (s_tracks s) - 1).
Proof.
  intros Hq F A i f B E j ti tj Ni Nj Ij.
  assert (Dn : forall l, Forall (fun f => 0 <= f_dur f) l -> 0 <= durations l).
  { induction 1; [cbn; lia|]. rewrite durations_cons. lia. }
  assert (S : forall t, In t (s_tracks s) -> u64 (t_dts t) = t_dts t).
  { intros t I. rewrite Forall_forall in F. destruct (F t I) as (_ & A1 & A2 & A3). pose proof (Dn _ A2).
    unfold u64. apply Z.mod_small. lia. }
  pose proof (order_near q (length (concat (map t_frames (s_tracks s)))) None (map stream_of (s_tracks s)) Hq) as O.
  assert (H : forall i u, nth_error (map stream_of (s_tracks s)) i = Some u -> 0 <= u_scale u / 4 <= q /\ 0 <= u_next u /\
     Forall (fun f => 0 <= f_dur f) (u_left u) /\ u_next u + durations (u_left u) < 2 ^ 63).
  { intros k u N. destruct (nth_error (s_tracks s) k) as [t|] eqn:Nt.
    - rewrite (map_nth_error _ _ _ Nt) in N. injection N as <-. pose proof (nth_error_In _ _ Nt) as I.
      cbn [stream_of u_scale u_next u_left]. rewrite (S t I). rewrite Forall_forall in F. exact (F t I).
    - exfalso. apply nth_error_None in Nt. assert (k < length (map stream_of (s_tracks s)))%nat by (apply nth_error_Some; congruence).
      rewrite map_length in H. lia. }
  specialize (O H A i f B E j (stream_of ti) (stream_of tj) (map_nth_error _ _ _ Ni) (map_nth_error _ _ _ Nj) Ij).
  cbn [stream_of u_next] in O. rewrite (S ti), (S tj) in O by (eapply nth_error_In; eauto).
  unfold zlen in O. rewrite map_length in O. exact O.
Qed.

(* ------------------------------------------------------------------ *)
(* The metadata                                                         *)

Lemma base128_synchsafe n : 0 <= n < 2 ^ 28 -> base128 (synchsafe n) = n.
Proof.
  intro H. unfold base128, synchsafe. cbn [fold_left].
  rewrite (Z.mod_small (n / 2097152)) by (split; [apply Z.div_pos; lia|apply Z.div_lt_upper_bound; lia]).
  pose proof (Z.div_mod n 128 ltac:(lia)).
  pose proof (Z.div_mod (n / 128) 128 ltac:(lia)). rewrite Z.div_div in H1 by lia. change (128 * 128) with 16384 in H1.
  pose proof (Z.div_mod (n / 16384) 128 ltac:(lia)). rewrite Z.div_div in H2 by lia. change (16384 * 128) with 2097152 in H2.
  lia.
Qed.

Lemma cstring_uri r : cstring (emsg_uri ++ [0] ++ r) = Some (id3_scheme, 0 :: r).
Proof. reflexivity. Qed.

Lemma id3_text_back text : zlen text + 11 < 2 ^ 28 -> id3_text_of (id3_text text) = Some text.
Proof.
  intro H. pose proof (zlen_nonneg text). unfold id3_text_of, id3_text.
  set (n := zlen text + 1 + 10). set (m := zlen text + 1).
  assert (Zs : forall k, zlen (synchsafe k) = 4) by reflexivity.
  set (l := [73; 68; 51; 4; 0; 0] ++ synchsafe n ++ [84; 69; 88; 84] ++ synchsafe m ++ [0; 0] ++ [3] ++ text).
  assert (S6 : slice 6 4 l = synchsafe n).
  { unfold l. rewrite (slice_skip _ _ 6); [|reflexivity|lia]. apply slice0. apply Zs. }
  assert (S14 : slice 14 4 l = synchsafe m).
  { unfold l. rewrite (slice_skip _ _ 6); [|reflexivity|lia]. do 2 (rewrite (slice_skip _ _ 4); [|reflexivity|lia]). apply slice0. apply Zs. }
  assert (S0 : slice 0 3 l = [73; 68; 51]) by reflexivity.
  assert (S10 : slice 10 4 l = [84; 69; 88; 84]).
  { unfold l. rewrite (slice_skip _ _ 6); [|reflexivity|lia]. rewrite (slice_skip _ _ 4); [|reflexivity|lia]. apply slice0. reflexivity. }
  assert (S20 : slice 20 1 l = [3]).
  { unfold l. rewrite (slice_skip _ _ 6); [|reflexivity|lia]. do 3 (rewrite (slice_skip _ _ 4); [|reflexivity|lia]).
    rewrite (slice_skip _ _ 2); [|reflexivity|lia]. apply slice0. reflexivity. }
  assert (S21 : slice 21 (m - 1) l = text).
  { unfold l. rewrite (slice_skip _ _ 6); [|reflexivity|lia]. do 3 (rewrite (slice_skip _ _ 4); [|reflexivity|lia]).
    rewrite (slice_skip _ _ 2); [|reflexivity|lia]. rewrite (slice_skip _ _ 1); [|reflexivity|lia].
    rewrite <- (app_nil_r text) at 1. apply slice0. unfold m. lia. }
  assert (Zl : zlen l = 10 + n).
  { unfold l. rewrite !zlen_app, !Zs. change (zlen [73; 68; 51; 4; 0; 0]) with 6. change (zlen [84; 69; 88; 84]) with 4.
    change (zlen [0; 0]) with 2. change (zlen [3]) with 1. unfold n. lia. }
  rewrite S6, S14, S0, S10, S20, Zl.
  rewrite !base128_synchsafe by (unfold n, m; lia). rewrite !name_eqb_refl, Z.eqb_refl.
  replace (n =? 10 + m) with true by (unfold n, m; lia).
  cbn [andb]. now rewrite S21.
Qed.

Lemma event_plain mem s t ts total_ body : good_segm s -> s_tracks s = t :: ts -> t_frames t <> [] ->
  s_meta s <> [] -> zlen (s_meta s) + 11 < 2 ^ 28 -> 0 <= t_dts t < 2 ^ 63 -> is_u32 (t_scale t) -> is_u32 (s_index s) ->
  plain_segment mem s = Ok (total_, body) ->
  event_says body = Some (s_index s, t_dts t, t_scale t, s_meta s).
Proof.
  intros G Et Nf Nm Hz Hd Hs Hi P. destruct (plain_ok mem s G) as (d & ys & body' & P' & _ & _ & Eb & Zm & M31 & Zd & B31 & Hm).
  rewrite P in P'. injection P' as -> ->.
  set (M := moof_of s 1 no_ext) in *. set (mf := be 4 0 ++ be 4 (s_index s)) in *.
  pose proof (zlen_nonneg (flat ((MFHD, mf) :: ys))). unfold event_says. rewrite Eb, file_boxes by (auto; lia). rewrite named_app.
  change (named EMSG [(zlen (flat (pre_boxes s (M + 8 + total (frames_of s)))), MOOF, flat ((MFHD, mf) :: ys));
     (zlen (flat (pre_boxes s (M + 8 + total (frames_of s)))) + 8 + zlen (flat ((MFHD, mf) :: ys)), MDAT, d)]) with (@nil box).
  rewrite app_nil_r.
  assert (Es : 0 < emsg_size s).
  { unfold emsg_size. rewrite Et. pose proof (zlen_nonneg (s_meta s)). destruct (s_meta s); [congruence|].
    destruct (t_frames t); [congruence|]. lia. }
  assert (Pk : pick EMSG (pre_boxes s (M + 8 + total (frames_of s))) = [emsg_body s t]).
  { unfold pre_boxes. rewrite Et, !pick_app. replace (0 <? emsg_size s) with true by lia. destruct ts; reflexivity. }
  destruct (one_named _ _ 0 _ Pk) as (b & -> & ->). cbv zeta.
  unfold emsg_body. set (r := emsg_uri ++ [0] ++ id3_text (s_meta s)). rewrite Z.max_l by lia.
  set (p := be 4 16777216 ++ be 4 (t_scale t) ++ be 8 (t_dts t) ++ be 4 1 ++ be 4 (s_index s) ++ r).
  assert (E0 : unbe (slice 0 4 p) = 16777216) by (unfold p; rewrite slice0 by apply zlen_be; reflexivity).
  assert (E4 : unbe (slice 4 4 p) = t_scale t).
  { unfold p. rewrite (slice_skip _ _ 4); [|apply zlen_be|lia]. rewrite slice0 by apply zlen_be. now apply unbe_be4. }
  assert (E8 : unbe (slice 8 8 p) = t_dts t).
  { unfold p. do 2 (rewrite (slice_skip _ _ 4); [|apply zlen_be|lia]). rewrite slice0 by apply zlen_be. apply unbe_be8. lia. }
  assert (E20 : unbe (slice 20 4 p) = s_index s).
  { unfold p. do 2 (rewrite (slice_skip _ _ 4); [|apply zlen_be|lia]). rewrite (slice_skip _ _ 8); [|apply zlen_be|lia].
    rewrite (slice_skip _ _ 4); [|apply zlen_be|lia]. rewrite slice0 by apply zlen_be. now apply unbe_be4. }
  assert (E24 : skipn 24 p = r).
  { unfold p. rewrite !app_assoc. rewrite <- (app_assoc _ _ r).
    pose proof (skipn_app_exact (be 4 16777216 ++ be 4 (t_scale t) ++ be 8 (t_dts t) ++ be 4 1 ++ be 4 (s_index s)) r) as S.
    rewrite !app_length, !be_length in S. rewrite <- !app_assoc in S. rewrite <- !app_assoc. exact S. }
  rewrite E0, E4, E8, E20, E24, Z.eqb_refl. unfold r. rewrite cstring_uri. cbn [cstring].
  change (0 =? 0) with true. cbv iota. rewrite id3_text_back by auto. now rewrite name_eqb_refl.
Qed.

(* ------------------------------------------------------------------ *)
(* The data with the times                                              *)

Definition upd (f : nat -> Z) (i : nat) (v : Z) (j : nat) : Z := if Nat.eqb i j then v else f j.

Fixpoint annot (L : list (nat * fr)) (t a : nat -> Z) : list (nat * (fr * Z * Z)) :=
  match L with
  | [] => []
  | (i, f) :: L =>
      (i, (f, t i, a i)) :: annot L (upd t i (t i + f_dur f)) (upd a i (a i + f_size f))
  end.

Lemma annot_track i L : forall t a,
  map snd (filter (fun p => Nat.eqb (fst p) i) (annot L t a)) = placed (t i) (a i) (of i L).
Proof.
  induction L as [|[j f] L IH]; intros t a; [reflexivity|].
  cbn [annot filter fst]. rewrite of_cons. destruct (Nat.eqb_spec j i) as [->|D].
  - cbn [map snd app placed]. rewrite IH. unfold upd. now rewrite Nat.eqb_refl.
  - cbn [app]. rewrite IH. unfold upd. now replace (Nat.eqb j i) with false by lia.
Qed.

Lemma annot_data mem L : forall t a ps, Forall (fun p => (fst p < length ps)%nat) L ->
  (forall i, (i < length ps)%nat -> a i = fst (nth i ps (0, 0))) ->
  concat (map (fun p => bytes mem (snd (snd p)) (f_size (fst (fst (snd p))))) (annot L t a)) = mdat mem L ps.
Proof.
  induction L as [|[i f] L IH]; intros t a ps F H; [reflexivity|].
  apply Forall_cons_iff in F. destruct F as (Fi & F). cbn [fst] in Fi.
  cbn [annot map concat mdat fst snd]. rewrite (H i Fi). destruct (nth i ps (0, 0)) as [pos avail] eqn:E. cbn [fst].
  f_equal. apply IH.
  - now rewrite set_nth_length.
  - rewrite set_nth_length. intros k Hk. unfold upd. destruct (Nat.eqb_spec i k) as [<-|D].
    + now rewrite nth_set_nth_eq.
    + rewrite nth_set_nth_neq by auto. now apply H.
Qed.

Lemma annot_split L : forall t a A x B, annot L t a = A ++ x :: B ->
  exists A0 i f B0 t1 a1, L = A0 ++ (i, f) :: B0 /\ fst x = i /\ fst (fst (snd x)) = f /\
    snd (fst (snd x)) = t i + durations (of i A0) /\ B = annot B0 t1 a1 /\
    forall j, t1 j = t j + durations (of j (A0 ++ [(i, f)])).
Proof.
  induction L as [|[i f] L IH]; intros t a A x B H; cbn [annot] in H; [destruct A; discriminate|].
  destruct A as [|y A]; cbn [app] in H; injection H as H1 H2.
  - exists [], i, f, L. eexists. eexists. split; [reflexivity|]. subst x. cbn [fst snd]. repeat split; eauto.
    + cbn. lia.
    + intro j. cbn [app]. rewrite of_cons. unfold upd. destruct (Nat.eqb_spec i j) as [<-|D].
      * cbn [app]. rewrite durations_cons. change (durations (of i [])) with 0. lia.
      * cbn. lia.
  - destruct (IH _ _ _ _ _ H2) as (A0 & k & g & B0 & t1 & a1 & -> & X1 & X2 & X3 & X4 & X5).
    assert (S : forall j l, upd t i (t i + f_dur f) j + durations (of j l) = t j + durations (of j ((i, f) :: l))).
    { intros j l. rewrite of_cons. unfold upd. destruct (Nat.eqb_spec i j) as [<-|D]; cbn [app].
      - rewrite durations_cons. lia.
      - reflexivity. }
    exists ((i, f) :: A0), k, g, B0, t1, a1. split; [reflexivity|]. split; [auto|]. split; [auto|]. split.
    + rewrite X3. apply S.
    + split; [auto|]. intro j. rewrite X5. apply S.
Qed.

Lemma annot_later L : forall t a x, Forall (fun p => 0 <= f_dur (snd p)) L -> In x (annot L t a) ->
  t (fst x) <= snd (fst (snd x)) /\ exists g, In (fst x, g) L.
Proof.
  induction L as [|[i f] L IH]; intros t a x F I; [destruct I|].
  apply Forall_cons_iff in F. destruct F as (Ff & F). cbn [snd] in Ff.
  destruct I as [<-|I].
  - cbn. split; [lia|]. eauto.
  - destruct (IH _ _ _ F I) as (A & g & B). split; [|exists g; now right].
    unfold upd in A. destruct (Nat.eqb_spec i (fst x)) as [->|D]; lia.
Qed.

Lemma frames_in s i f : In (i, f) (frames_of s) ->
  exists t, nth_error (s_tracks s) i = Some t /\ In f (t_frames t).
Proof.
  intro I. destruct (frames_of_order s) as (F & O). rewrite Forall_forall in F. pose proof (F _ I) as H. cbn in H.
  destruct (nth_error (s_tracks s) i) as [t|] eqn:N; [|apply nth_error_None in N; lia].
  exists t. split; [reflexivity|]. rewrite <- (O i t N). unfold of. apply in_map_iff. exists (i, f). split; [reflexivity|].
  apply filter_In. split; [exact I|]. cbn. apply Nat.eqb_refl.
Qed.

Lemma interleaved mem s q total_ body : good_segm s -> 0 <= q < 2 ^ 62 ->
  Forall (fun t => 0 <= t_scale t / 4 <= q /\ 0 <= t_dts t /\ t_dts t + durations (t_frames t) < 2 ^ 63) (s_tracks s) ->
  plain_segment mem s = Ok (total_, body) ->
  exists h L,
    body = h ++ concat (map (fun p => bytes mem (snd (snd p)) (f_size (fst (fst (snd p))))) L) /\
    Forall (fun p => (fst p < length (s_tracks s))%nat) L /\
    (forall i t, nth_error (s_tracks s) i = Some t ->
       map snd (filter (fun p => Nat.eqb (fst p) i) L) = placed (t_dts t) (t_base t) (t_frames t)) /\
    (forall A x B y, L = A ++ x :: B -> In y B ->
       snd (fst (snd x)) <= snd (fst (snd y)) + q * (zlen (s_tracks s) - 1)).
Proof.
  intros G Hq F P. pose proof G as (Gt & _). destruct (segment_data mem s Gt) as (ws & Ew & Eb).
  unfold plain_segment in P. destruct (build_header s 1 no_ext false) as [[h tt]|]; [|discriminate].
  rewrite Ew in P. injection P as <- <-.
  set (df := Track Audio 0 0 [] 0 0).
  set (T := fun i => t_dts (nth i (s_tracks s) df)). set (A := fun i => t_base (nth i (s_tracks s) df)).
  destruct (frames_of_order s) as (FI & FO).
  assert (FF : Forall (fun t => 0 <= t_scale t / 4 <= q /\ 0 <= t_dts t /\
    Forall (fun f => 0 <= f_dur f) (t_frames t) /\ t_dts t + durations (t_frames t) < 2 ^ 63) (s_tracks s)).
  { rewrite Forall_forall in *. intros t I. destruct (F t I) as (X1 & X2 & X3). destruct (Gt t I) as (Y & _).
    repeat split; auto; try lia. eapply Forall_impl; [|exact Y]. cbn. unfold is_u32. intros f H. lia. }
  exists h, (annot (frames_of s) T A). split; [|split; [|split]].
  - f_equal. unfold wbytes in Eb. rewrite Eb. symmetry. apply annot_data.
    + rewrite map_length. exact FI.
    + rewrite map_length. intros i Hi. unfold A.
      destruct (nth_error (s_tracks s) i) as [t|] eqn:N; [|apply nth_error_None in N; lia].
      rewrite (nth_error_nth _ _ df N).
      assert (N' := map_nth_error (fun t => (t_base t, t_len t)) _ _ N).
      now rewrite (nth_error_nth _ _ (0, 0) N').
  - apply Forall_forall. intros x I. apply in_split in I. destruct I as (A1 & B1 & E).
    destruct (annot_split _ _ _ _ _ _ E) as (A0 & i & f & B0 & t1 & a1 & EL & <- & _).
    rewrite EL in FI. apply Forall_app in FI. destruct FI as (_ & FI). apply Forall_cons_iff in FI. apply FI.
  - intros i t N. rewrite annot_track, (FO i t N). unfold T, A. now rewrite (nth_error_nth _ _ df N).
  - intros A1 x B1 y E I.
    destruct (annot_split _ _ _ _ _ _ E) as (A0 & i & f & B0 & t1 & a1 & EL & X1 & X2 & X3 & -> & X5).
    assert (FD : Forall (fun p => 0 <= f_dur (snd p)) (frames_of s)).
    { apply Forall_forall. intros [k g] Ig. destruct (frames_in s k g Ig) as (t & N & Ift).
      rewrite Forall_forall in FF. destruct (FF t (nth_error_In _ _ N)) as (_ & _ & Y & _).
      rewrite Forall_forall in Y. exact (Y g Ift). }
    rewrite EL in FD. apply Forall_app in FD. destruct FD as (FA & FD). apply Forall_cons_iff in FD. destruct FD as (Ff & FB).
    cbn [snd] in Ff. destruct (annot_later _ _ _ _ FB I) as (Y1 & g & Y2).
    assert (Ii : In (i, f) (frames_of s)) by (rewrite EL; apply in_or_app; right; now left).
    assert (Ij : In (fst y, g) (frames_of s)) by (rewrite EL; apply in_or_app; right; now right).
    destruct (frames_in _ _ _ Ii) as (ti & Ni & _). destruct (frames_in _ _ _ Ij) as (tj & Nj & _).
    pose proof (frames_near q s Hq FF A0 i f B0 EL (fst y) ti tj Ni Nj (ex_intro _ g Y2)) as R.
    rewrite X3. unfold T. rewrite (nth_error_nth _ _ df Ni).
    rewrite X5 in Y1. unfold T in Y1. rewrite (nth_error_nth _ _ df Nj) in Y1.
    assert (D : durations (of (fst y) A0) <= durations (of (fst y) (A0 ++ [(i, f)]))).
    { clear - Ff. induction A0 as [|[k h] A0 IH]; cbn [app].
      - rewrite of_cons. destruct (Nat.eqb i (fst y)); cbn; lia.
      - rewrite !of_cons. destruct (Nat.eqb k (fst y)); cbn [app]; rewrite ?durations_cons; lia. }
    lia.
Qed.
