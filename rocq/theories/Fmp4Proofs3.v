From Coq Require Import ZArith List Bool Lia ZifyBool.
From Verif Require Import Lists Bytes Fmp4Model Fmp4Spec Fmp4Proofs Fmp4Proofs2.
Import ListNotations.
Open Scope Z_scope.

(* ------------------------------------------------------------------ *)
(* Boxes of a name                                                      *)

Definition pick (n : list Z) (l : list (list Z * list Z)) : list (list Z) :=
  map snd (filter (fun x => name_eqb (fst x) n) l).

Lemma named_pick n l : forall pos, map b_body (named n (locate pos l)) = pick n l.
Proof.
  unfold named, pick. induction l as [|[m p] l IH]; intro pos; [reflexivity|].
  cbn [locate filter b_name fst snd]. unfold b_name. cbn [fst snd].
  destruct (name_eqb m n); cbn [map]; rewrite IH; reflexivity.
Qed.

Lemma pick_app n a b : pick n (a ++ b) = pick n a ++ pick n b.
Proof. unfold pick. now rewrite filter_app, map_app. Qed.

Lemma pick_all n l : Forall (fun x => fst x = n) l -> pick n l = map snd l.
Proof.
  unfold pick. induction 1 as [|[m p] l E F IH]; [reflexivity|]. cbn in E. subst m.
  cbn [filter fst]. rewrite name_eqb_refl. cbn. now rewrite IH.
Qed.

Lemma name_eqb_neq a b : a <> b -> name_eqb a b = false.
Proof. intro H. unfold name_eqb. destruct (list_eq_dec Z.eq_dec a b); congruence. Qed.

Lemma pick_none n l : Forall (fun x => fst x <> n) l -> pick n l = [].
Proof.
  unfold pick. induction 1 as [|[m p] l E F IH]; [reflexivity|]. cbn in E.
  cbn [filter fst]. now rewrite name_eqb_neq.
Qed.

Lemma all_map {A B C} (f : B -> option C) (g : A -> B) l :
  all (fun x => f (g x)) l = all f (map g l).
Proof. induction l as [|a l IH]; cbn; [reflexivity|]. now rewrite IH. Qed.

Lemma one_named n l pos p : pick n l = [p] ->
  exists b, named n (locate pos l) = [b] /\ b_body b = p.
Proof.
  rewrite <- (named_pick n l pos). destruct (named n (locate pos l)) as [|b [|? ?]]; cbn; try discriminate.
  intro H. injection H as <-. eauto.
Qed.

(* ------------------------------------------------------------------ *)
(* A track fragment                                                     *)

Definition tfhd_body (id sdi : Z) : list Z :=
  if 0 <? sdi then be 4 131074 ++ be 4 id ++ be 4 sdi else be 4 131072 ++ be 4 id.
Definition tfdt_body (t : Z) : list Z := be 4 16777216 ++ be 8 t.

Lemma tfhd_bx id sdi : tfhd id sdi = bx TFHD (tfhd_body id sdi).
Proof.
  unfold tfhd, bx, tfhd_body. destruct (0 <? sdi); rewrite !zlen_app, !zlen_be; reflexivity.
Qed.
Lemma tfdt_bx t : tfdt t = bx TFDT (tfdt_body t).
Proof. unfold tfdt, bx, tfdt_body. rewrite !zlen_app, !zlen_be. reflexivity. Qed.

Definition foreign (x : list Z * list Z) : Prop :=
  fst x <> TFHD /\ fst x <> TFDT /\ fst x <> TRUN.

Definition traf_boxes (id sdi e : Z) (tr xb : list (list Z * list Z)) :=
  (TFHD, tfhd_body id sdi) :: (TFDT, tfdt_body e) :: tr ++ xb.

Lemma ok_traf_boxes id sdi e tr xb : Forall ok_box tr -> Forall ok_box xb ->
  Forall ok_box (traf_boxes id sdi e tr xb).
Proof.
  intros A B. constructor.
  { split; [reflexivity|]. cbn [snd]. unfold tfhd_body. destruct (0 <? sdi); rewrite !zlen_app, !zlen_be; lia. }
  constructor.
  { split; [reflexivity|]. cbn [snd]. unfold tfdt_body. rewrite !zlen_app, !zlen_be; lia. }
  apply Forall_app. auto.
Qed.

Lemma traf_flat file P id sdi e tr xb rs :
  0 <= id < 2 ^ 32 -> 0 <= e < 2 ^ 64 ->
  Forall (fun x => fst x = TRUN) tr -> Forall ok_box tr -> Forall ok_box xb -> Forall foreign xb ->
  all (fun x => run P (snd x)) tr = Some rs ->
  traf file P (flat (traf_boxes id sdi e tr xb)) = Some (id, play file e (concat rs)).
Proof.
  intros Hi He Tn Tk Xk Xf A. unfold traf.
  rewrite boxes_flat by now apply ok_traf_boxes.
  assert (N1 : pick TFHD (traf_boxes id sdi e tr xb) = [tfhd_body id sdi]).
  { unfold traf_boxes. change (?a :: ?b :: tr ++ xb) with ([a; b] ++ tr ++ xb). rewrite !pick_app.
    rewrite (pick_none TFHD tr), (pick_none TFHD xb).
    - reflexivity.
    - eapply Forall_impl; [|exact Xf]. intros x (H & _). exact H.
    - eapply Forall_impl; [|exact Tn]. cbn. intros x ->. discriminate. }
  assert (N2 : pick TFDT (traf_boxes id sdi e tr xb) = [tfdt_body e]).
  { unfold traf_boxes. change (?a :: ?b :: tr ++ xb) with ([a; b] ++ tr ++ xb). rewrite !pick_app.
    rewrite (pick_none TFDT tr), (pick_none TFDT xb).
    - reflexivity.
    - eapply Forall_impl; [|exact Xf]. intros x (_ & H & _). exact H.
    - eapply Forall_impl; [|exact Tn]. cbn. intros x ->. discriminate. }
  assert (N3 : pick TRUN (traf_boxes id sdi e tr xb) = map snd tr).
  { unfold traf_boxes. change (?a :: ?b :: tr ++ xb) with ([a; b] ++ tr ++ xb). rewrite !pick_app.
    rewrite (pick_all TRUN tr), (pick_none TRUN xb).
    - now rewrite app_nil_r.
    - eapply Forall_impl; [|exact Xf]. intros x (_ & _ & H). exact H.
    - exact Tn. }
  destruct (one_named _ _ 0 _ N1) as (h & -> & Eh). destruct (one_named _ _ 0 _ N2) as (d & -> & Ed).
  rewrite all_map, named_pick, N3, <- all_map, A, Eh, Ed.
  assert (E1 : unbe (slice 0 4 (tfhd_body id sdi)) = if 0 <? sdi then 131074 else 131072).
  { unfold tfhd_body. destruct (0 <? sdi); rewrite slice0 by apply zlen_be; reflexivity. }
  assert (E2 : unbe (slice 4 4 (tfhd_body id sdi)) = id).
  { unfold tfhd_body. destruct (0 <? sdi); (rewrite (slice_skip _ _ 4); [|apply zlen_be|lia]).
    - rewrite slice0 by apply zlen_be. now apply unbe_be4.
    - rewrite <- (app_nil_r (be 4 id)). rewrite slice0 by apply zlen_be. now apply unbe_be4. }
  assert (E3 : unbe (slice 0 4 (tfdt_body e)) = 16777216).
  { unfold tfdt_body. rewrite slice0 by apply zlen_be. reflexivity. }
  assert (E4 : unbe (slice 4 8 (tfdt_body e)) = e).
  { unfold tfdt_body. rewrite (slice_skip _ _ 4); [|apply zlen_be|lia].
    rewrite <- (app_nil_r (be 8 e)). rewrite slice0 by apply zlen_be. now apply unbe_be8. }
  rewrite E1, E2, E3, E4. destruct (0 <? sdi); reflexivity.
Qed.

(* ------------------------------------------------------------------ *)
(* The track fragments of a segment                                     *)

Definition runs_of (L : list (nat * fr)) (i : nat) : Z := sws None (combine (ats i 0 L) (of i L)).

(* What is needed of a track whose frames are at offs. *)
Definition fits (base : Z) (t : track) (offs : list Z) : Prop :=
  ok_frs (t_type t) (delay0 t) (combine offs (t_frames t)) /\
  Forall (fun p => 0 <= fst p /\ 0 <= f_size (snd p) /\ base + fst p + f_size (snd p) < 2 ^ 31)
    (combine offs (t_frames t)) /\
  length offs = length (t_frames t) /\ zlen (t_frames t) < 2 ^ 26 /\ earliest t < 2 ^ 64.

(* y is the fragment of the track t with number id. *)
Definition traf_is (P base sdi id : Z) (xb : list (list Z * list Z)) (t : track) (offs : list Z)
    (y : list Z * list Z) : Prop :=
  exists tr rs, y = (TRAF, flat (traf_boxes id sdi (earliest t) tr xb)) /\
    Forall (fun x => fst x = TRUN) tr /\ Forall ok_box tr /\
    all (fun x => run P (snd x)) tr = Some rs /\
    concat rs = smps (t_type t) (P + base) (delay0 t) (combine offs (t_frames t)).

Lemma zlen_combine (offs : list Z) (l : list fr) : length offs = length l -> zlen (combine offs l) = zlen l.
Proof. intro H. unfold zlen. rewrite combine_length. lia. Qed.

Lemma sws_bound l : forall p, 0 <= sws p l <= zlen l.
Proof.
  induction l as [|[o f] l IH]; intro p; cbn [sws].
  - unfold zlen. cbn. lia.
  - rewrite zlen_cons. specialize (IH (Some (o + f_size f))). destruct p as [e|]; [destruct (o =? e)|]; lia.
Qed.

Lemma zlen_tfhd id sdi : zlen (tfhd id sdi) = if 0 <? sdi then 20 else 16.
Proof. unfold tfhd. destruct (0 <? sdi); unfold atom_header; rewrite !zlen_app, !zlen_be; reflexivity. Qed.
Lemma zlen_tfdt e : zlen (tfdt e) = 20.
Proof. unfold tfdt, atom_header. rewrite !zlen_app, !zlen_be; reflexivity. Qed.

Lemma traf_one P moof sdi id x xb t offs :
  0 <= moof -> fits (moof + 8) t offs -> Forall ok_box xb -> x_write x moof = flat xb -> zlen (flat xb) = x_size x ->
  x_size x < 2 ^ 30 ->
  exists y,
    (let b := tfhd id sdi ++ tfdt (earliest t) ++ track_truns (moof + 8) t offs ++ x_write x moof in
     atom_header (8 + zlen b) [116; 114; 97; 102] ++ b) = bx (fst y) (snd y) /\
    traf_is P (moof + 8) sdi id xb t offs y /\ ok_box y /\
    8 + zlen (snd y) = 8 + (if 0 <? sdi then 20 else 16) + 20 + x_size x +
      20 * sws None (combine offs (t_frames t)) + trun_size (t_type t) * zlen (t_frames t).
Proof.
  intros M (Of & Fr & Le & Zn & Ee) Xk Xw Xs Xb.
  destruct (truns_none (t_type t) P (moof + 8) (combine offs (t_frames t)) (delay0 t) Of ltac:(lia) Fr)
    as (tr & rs & T & N & K & A & C & Zl).
  { now rewrite zlen_combine. }
  exists (TRAF, flat (traf_boxes id sdi (earliest t) tr xb)).
  assert (E : tfhd id sdi ++ tfdt (earliest t) ++ track_truns (moof + 8) t offs ++ x_write x moof =
    flat (traf_boxes id sdi (earliest t) tr xb)).
  { unfold traf_boxes. rewrite !flat_cons, flat_app, tfhd_bx, tfdt_bx, Xw. unfold track_truns. rewrite T. reflexivity. }
  assert (Zz : 8 + zlen (flat (traf_boxes id sdi (earliest t) tr xb)) =
    8 + (if 0 <? sdi then 20 else 16) + 20 + x_size x +
      20 * sws None (combine offs (t_frames t)) + trun_size (t_type t) * zlen (t_frames t)).
  { rewrite <- E, !zlen_app, zlen_tfhd, zlen_tfdt, Xw, Xs. unfold track_truns. rewrite T, Zl, zlen_combine by auto. lia. }
  cbn [fst snd]. cbv zeta. rewrite E. split; [reflexivity|]. split.
  { exists tr, rs. auto. }
  split; [|exact Zz]. split; [reflexivity|]. cbn [snd]. rewrite Zz.
  pose proof (sws_bound (combine offs (t_frames t)) None). rewrite zlen_combine in H by auto.
  destruct (0 <? sdi), (t_type t); cbn [trun_size]; lia.
Qed.

Fixpoint trafs_are (P base sdi : Z) (ix : nat) (xb : list (list Z * list Z)) (L : list (nat * fr))
    (ts : list track) (ys : list (list Z * list Z)) : Prop :=
  match ts, ys with
  | [], [] => True
  | t :: ts, y :: ys =>
      traf_is P base sdi (Z.of_nat ix + 1) xb t (ats ix 0 L) y /\ trafs_are P base sdi (S ix) xb L ts ys
  | _, _ => False
  end.

Lemma trafs_ok P moof sdi x xb L : forall ts vs ix,
  0 <= moof -> Forall ok_box xb -> x_write x moof = flat xb -> zlen (flat xb) = x_size x ->
  x_size x < 2 ^ 30 -> length ts = length vs ->
  (forall i t v, nth_error ts i = Some t -> nth_error vs i = Some v ->
     rev (v_offs v) = ats (ix + i) 0 L /\ of (ix + i) L = t_frames t /\
     fits (moof + 8) t (ats (ix + i) 0 L)) ->
  exists ys, trafs (Z.of_nat ix) sdi x moof ts vs = flat ys /\
    trafs_are P (moof + 8) sdi ix xb L ts ys /\ Forall ok_box ys /\ Forall (fun y => fst y = TRAF) ys /\
    zlen (flat ys) =
      (8 + (if 0 <? sdi then 20 else 16) + 20 + x_size x) * zlen ts +
      20 * zsum (map (runs_of L) (seq ix (length ts))) +
      fold_right (fun t n => zlen (t_frames t) * trun_size (t_type t) + n) 0 ts.
Proof.
  induction ts as [|t ts IH]; intros [|v vs] ix M Xk Xw Xs Xb Le H; try discriminate Le.
  - exists []. cbn. repeat split; try constructor. unfold zlen; cbn; lia.
  - destruct (H 0%nat t v eq_refl eq_refl) as (E1 & E2 & E3). rewrite Nat.add_0_r in E1, E2, E3.
    destruct (traf_one P moof sdi (Z.of_nat ix + 1) x xb t (ats ix 0 L) M E3 Xk Xw Xs Xb) as (y & By & Iy & Ky & Zy).
    destruct (IH vs (S ix)) as (ys & A & B & C & D & Zl); auto.
    { intros i t' v' N1 N2. destruct (H (S i) t' v' N1 N2) as (A & B & C).
      replace (S ix + i)%nat with (ix + S i)%nat by lia. auto. }
    exists (y :: ys). split.
    { cbn [trafs]. rewrite E1. cbv zeta in By |- *. rewrite app_assoc, By.
      replace (Z.of_nat ix + 1) with (Z.of_nat (S ix)) by lia. rewrite A. destruct y; reflexivity. }
    split; [split; auto|]. split; [auto|]. split.
    { constructor; auto. destruct Iy as (? & ? & -> & _). reflexivity. }
    destruct y as [yn yp]. destruct Iy as (tr & rs & Ey & _). injection Ey as -> _.
    rewrite flat_cons, zlen_app, zlen_bx, Zl by reflexivity. cbn [snd] in Zy. rewrite Zy.
    rewrite zlen_cons. cbn [length seq map zsum fold_right]. fold (zsum (map (runs_of L) (seq (S ix) (length ts)))).
    unfold runs_of at 2. rewrite E2. lia.
Qed.

Fixpoint number (ix : nat) (ts : list track) : list (nat * track) :=
  match ts with [] => [] | t :: ts => (ix, t) :: number (S ix) ts end.

Lemma trafs_are_demux file P base sdi xb L : Forall ok_box xb -> Forall foreign xb ->
  forall ts ix ys,
  trafs_are P base sdi ix xb L ts ys -> Z.of_nat ix + zlen ts < 2 ^ 32 ->
  Forall (fun t => 0 <= earliest t < 2 ^ 64) ts ->
  all (fun y => traf file P (snd y)) ys =
  Some (map (fun p => let '(i, t) := p in
              (Z.of_nat i + 1, play file (earliest t)
                 (smps (t_type t) (P + base) (delay0 t) (combine (ats i 0 L) (t_frames t)))))
          (number ix ts)).
Proof.
  intros Xk Xf. induction ts as [|t ts IH]; intros ix [|y ys] H B F; cbn in H; try contradiction; [reflexivity|].
  destruct H as ((tr & rs & -> & Tn & Tk & A & C) & H). apply Forall_cons_iff in F. destruct F as (Ft & F).
  rewrite zlen_cons in B. pose proof (zlen_nonneg ts).
  cbn [all snd number map]. rewrite (traf_flat file P _ sdi (earliest t) tr xb rs) by (auto; lia).
  rewrite (IH (S ix) ys H) by (auto; lia). now rewrite C.
Qed.

(* ------------------------------------------------------------------ *)
(* What is played                                                       *)

Lemma map_cons_inv {A B C} (f : A -> C) (g : B -> C) a l b m :
  map f (a :: l) = map g (b :: m) -> f a = g b /\ map f l = map g m.
Proof. cbn. intro H. injection H. auto. Qed.

Definition show (k : mtype) (mem : Z -> Z) (p : fr * Z * Z) : shown :=
  let '(f, d, a) := p in
  let data := bytes mem a (f_size f) in
  match k with
  | Video => Shown (d + f_delay f) (f_dur f) (Some (f_key f)) data
  | Audio => Shown d (f_dur f) None data
  | Webvtt => Shown d (f_delay f) None data
  end.

Lemma play_video file mem b d l : forall offs t a, length offs = length l ->
  map (cut file b) (combine offs l) =
  map (fun x => bytes mem (snd x) (f_size (fst (fst x)))) (placed t a l) ->
  play file (t + d) (smps Video b d (combine offs l)) = map (show Video mem) (placed t a l).
Proof.
  induction l as [|f l IH]; intros [|o offs] t a Le H; try discriminate Le; [reflexivity|].
  cbn [combine placed] in *. apply map_cons_inv in H. destruct H as (H1 & H2).
  cbn [smps nextd samp play map]. cbn [m_cts m_dur m_flags m_at m_size show].
  replace (t + d + f_dur f) with (t + f_dur f + d) by lia. rewrite (IH offs _ (a + f_size f)) by auto.
  f_equal. unfold cut in H1. cbn [fst snd] in H1. rewrite H1. f_equal; [lia|]. destruct (f_key f); reflexivity.
Qed.

Lemma play_audio file mem b l : forall offs t a, length offs = length l ->
  map (cut file b) (combine offs l) =
  map (fun x => bytes mem (snd x) (f_size (fst (fst x)))) (placed t a l) ->
  play file t (smps Audio b 0 (combine offs l)) = map (show Audio mem) (placed t a l).
Proof.
  induction l as [|f l IH]; intros [|o offs] t a Le H; try discriminate Le; [reflexivity|].
  cbn [combine placed] in *. apply map_cons_inv in H. destruct H as (H1 & H2).
  cbn [smps nextd samp play map]. cbn [m_cts m_dur m_flags m_at m_size show].
  rewrite (IH offs _ (a + f_size f)) by auto.
  f_equal. unfold cut in H1. cbn [fst snd] in H1. rewrite H1. f_equal. lia.
Qed.

Lemma play_sub file mem b l : forall offs t a, length offs = length l -> (length l <= 1)%nat ->
  map (cut file b) (combine offs l) =
  map (fun x => bytes mem (snd x) (f_size (fst (fst x)))) (placed t a l) ->
  play file t (smps Webvtt b 0 (combine offs l)) = map (show Webvtt mem) (placed t a l).
Proof.
  intros offs t a Le L1 H. destruct l as [|f [|? ?]]; cbn in L1; try lia;
    destruct offs as [|o [|? ?]]; try discriminate Le; [reflexivity|].
  cbn [combine placed] in *. apply map_cons_inv in H. destruct H as (H1 & _).
  cbn [smps samp play map]. cbn [m_cts m_dur m_flags m_at m_size show].
  unfold cut in H1. cbn [fst snd] in H1. rewrite H1. f_equal. f_equal. lia.
Qed.

Lemma first_delay_delay0 t : t_type t = Video -> delay0 t = first_delay (t_frames t).
Proof. intro H. unfold delay0, first_delay. rewrite H. destruct (t_frames t); reflexivity. Qed.

Lemma earliest_good t : good_track t -> earliest t = t_dts t + delay0 t /\ 0 <= earliest t < 2 ^ 63.
Proof.
  intros (_ & _ & H). unfold earliest.
  assert (E : 0 <= t_dts t + delay0 t < 2 ^ 63).
  { destruct (t_type t) eqn:K.
    - rewrite first_delay_delay0 by auto. lia.
    - unfold delay0. rewrite K. lia.
    - unfold delay0. rewrite K. lia. }
  replace (t_dts t + delay0 t <? 0) with false by lia. lia.
Qed.

Lemma play_expected file mem b t offs : good_track t -> length offs = length (t_frames t) ->
  map (cut file b) (combine offs (t_frames t)) =
  map (fun x => bytes mem (snd x) (f_size (fst (fst x)))) (placed (t_dts t) (t_base t) (t_frames t)) ->
  play file (earliest t) (smps (t_type t) b (delay0 t) (combine offs (t_frames t))) = expected mem t.
Proof.
  intros G Le H. destruct (earliest_good t G) as (E & _). rewrite E.
  destruct G as (_ & _ & G). unfold expected.
  destruct (t_type t) eqn:K.
  - exact (play_video _ _ _ _ _ _ _ _ Le H).
  - unfold delay0. rewrite K, Z.add_0_r. exact (play_audio _ _ _ _ _ _ _ Le H).
  - unfold delay0. rewrite K, Z.add_0_r. destruct G as (_ & G). exact (play_sub _ _ _ _ _ _ _ Le G H).
Qed.
