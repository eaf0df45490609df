From Coq Require Import ZArith List Bool Lia ZifyBool.
From Verif Require Import Lists Bytes Fmp4Model Fmp4Spec Fmp4Proofs Fmp4Proofs2 Fmp4Proofs3.
Import ListNotations.
Open Scope Z_scope.

(* ------------------------------------------------------------------ *)
(* The boxes before the moof                                            *)

Definition STYP := [115; 116; 121; 112].
Definition MFHD := [109; 102; 104; 100].

Definition emsg_body (s : segm) (t : track) : list Z :=
  be 4 16777216 ++ be 4 (t_scale t) ++
  be 8 (Z.max (t_dts t) 0) ++ be 4 1 ++ be 4 (s_index s) ++ emsg_uri ++ [0] ++
  id3_text (s_meta s).

Definition sidx_body (scale ept size dur : Z) : list Z :=
  if ept >? 2 ^ 32 - 1
  then be 4 16777216 ++ be 4 1 ++ be 4 scale ++
       be 8 ept ++ be 8 0 ++ be 4 1 ++ be 4 size ++ be 4 dur ++ be 4 2415919104
  else be 4 0 ++ be 4 1 ++ be 4 scale ++
       be 4 ept ++ be 4 0 ++ be 4 1 ++ be 4 size ++ be 4 dur ++ be 4 2415919104.

Definition pre_boxes (s : segm) (size : Z) : list (list Z * list Z) :=
  (match s_tracks s with [_] => [(STYP, skipn 8 styp)] | _ => [] end) ++
  (match s_tracks s with
   | t :: _ => if 0 <? emsg_size s then [(EMSG, emsg_body s t)] else []
   | [] => []
   end) ++
  (match s_tracks s with
   | [t] => [(SIDX, sidx_body (t_scale t) (earliest t) size (total_dur t))]
   | _ => []
   end).

Lemma sidx_bx scale ept size dur : sidx scale ept size dur = bx SIDX (sidx_body scale ept size dur).
Proof.
  unfold sidx, bx, sidx_body. destruct (ept >? 2 ^ 32 - 1); rewrite !zlen_app, !zlen_be; reflexivity.
Qed.

Lemma zlen_emsg_body s t : zlen (emsg_body s t) = 24 + 47 + 1 + 21 + zlen (s_meta s).
Proof.
  unfold emsg_body, id3_text. rewrite !zlen_app, !zlen_be.
  change (zlen emsg_uri) with 47. change (zlen [0]) with 1. change (zlen [73; 68; 51; 4; 0; 0]) with 6.
  change (zlen [84; 69; 88; 84]) with 4. change (zlen [0; 0]) with 2. change (zlen [3]) with 1.
  unfold synchsafe, zlen. cbn [length]. lia.
Qed.

Lemma emsg_bx s t : 0 < emsg_size s -> emsg (emsg_size s) s t = bx EMSG (emsg_body s t).
Proof.
  intro H. unfold emsg, bx. rewrite zlen_emsg_body. fold (emsg_body s t).
  replace (emsg_size s) with (8 + (24 + 47 + 1 + 21 + zlen (s_meta s))); [reflexivity|].
  unfold emsg_size in *. destruct (s_meta s); [lia|]. destruct (s_tracks s); [lia|].
  destruct (t_frames _); lia.
Qed.

Lemma pre_flat s size :
  (match s_tracks s with [_] => styp | _ => [] end) ++
  (match s_tracks s with
   | t :: _ => if 0 <? emsg_size s then emsg (emsg_size s) s t else []
   | [] => []
   end) ++
  (match s_tracks s with
   | [t] => sidx (t_scale t) (earliest t) size (total_dur t)
   | _ => []
   end) = flat (pre_boxes s size).
Proof.
  unfold pre_boxes. rewrite !flat_app. f_equal; [|f_equal].
  - destruct (s_tracks s) as [|t [|? ?]]; reflexivity.
  - destruct (s_tracks s) as [|t l]; [reflexivity|].
    destruct (Z.ltb_spec 0 (emsg_size s)); [|reflexivity].
    rewrite emsg_bx by auto. unfold flat. cbn. now rewrite app_nil_r.
  - destruct (s_tracks s) as [|t [|? ?]]; try reflexivity.
    rewrite sidx_bx. unfold flat. cbn. now rewrite app_nil_r.
Qed.

Definition pre_size (s : segm) : Z :=
  match s_tracks s with [_] => 24 | _ => 0 end + emsg_size s +
  match s_tracks s with [t] => if earliest t >? 2 ^ 32 - 1 then 52 else 44 | _ => 0 end.

Lemma emsg_size_pos s : 0 <= emsg_size s <= 101 + zlen (s_meta s).
Proof.
  unfold emsg_size. pose proof (zlen_nonneg (s_meta s)).
  destruct (s_meta s); [lia|]. destruct (s_tracks s); [lia|]. destruct (t_frames _); lia.
Qed.

Lemma zlen_sidx_body scale ept size dur :
  8 + zlen (sidx_body scale ept size dur) = if ept >? 2 ^ 32 - 1 then 52 else 44.
Proof. unfold sidx_body. destruct (ept >? 2 ^ 32 - 1); rewrite !zlen_app, !zlen_be; reflexivity. Qed.

Lemma zlen_pre s size : zlen (flat (pre_boxes s size)) = pre_size s.
Proof.
  unfold pre_boxes, pre_size. rewrite !flat_app, !zlen_app. rewrite Z.add_assoc. f_equal; [f_equal|].
  - destruct (s_tracks s) as [|t [|? ?]]; reflexivity.
  - pose proof (emsg_size_pos s). destruct (s_tracks s) as [|t l] eqn:E.
    + unfold emsg_size. rewrite E. destruct (s_meta s); reflexivity.
    + destruct (Z.ltb_spec 0 (emsg_size s)).
      * rewrite flat_cons, zlen_app, <- emsg_bx by auto. change (zlen (flat [])) with 0.
        unfold emsg, atom_header. rewrite !zlen_app. fold (emsg_body s t).
        pose proof (zlen_emsg_body s t) as Z1. unfold emsg_body in Z1. rewrite !zlen_app in Z1.
        rewrite !zlen_be in *. change (zlen [101; 109; 115; 103]) with 4.
        unfold emsg_size in *. destruct (s_meta s); [lia|]. rewrite E in *. destruct (t_frames t); lia.
      * change (zlen (flat [])) with 0. lia.
  - destruct (s_tracks s) as [|t [|? ?]]; try reflexivity.
    rewrite flat_cons, zlen_app, zlen_bx, zlen_sidx_body by reflexivity. change (zlen (flat [])) with 0. lia.
Qed.

Lemma pre_ok s size : zlen (s_meta s) < 2 ^ 31 -> Forall ok_box (pre_boxes s size).
Proof.
  intro H. unfold pre_boxes. apply Forall_app. split; [|apply Forall_app; split].
  - destruct (s_tracks s) as [|t [|? ?]]; repeat constructor.
  - destruct (s_tracks s) as [|t l]; [constructor|]. destruct (0 <? emsg_size s); [|constructor].
    constructor; [|constructor]. split; [reflexivity|]. cbn [snd]. rewrite zlen_emsg_body. lia.
  - destruct (s_tracks s) as [|t [|? ?]]; try constructor; [|constructor]. split; [reflexivity|].
    cbn [snd]. rewrite zlen_sidx_body. destruct (earliest t >? 2 ^ 32 - 1); lia.
Qed.

Lemma pre_names s size : Forall (fun x => fst x <> MOOF /\ fst x <> MDAT) (pre_boxes s size).
Proof.
  unfold pre_boxes. apply Forall_app. split; [|apply Forall_app; split].
  - destruct (s_tracks s) as [|t [|? ?]]; constructor; try constructor; discriminate.
  - destruct (s_tracks s) as [|t l]; [constructor|]. destruct (0 <? emsg_size s); constructor; try constructor; discriminate.
  - destruct (s_tracks s) as [|t [|? ?]]; constructor; try constructor; discriminate.
Qed.

(* ------------------------------------------------------------------ *)
(* Sizes                                                                *)

Lemma ats_bounds i L : forall cur, nonneg L -> 0 <= cur ->
  Forall (fun p => 0 <= fst p /\ 0 <= f_size (snd p) /\ fst p + f_size (snd p) <= cur + total L)
    (combine (ats i cur L) (of i L)).
Proof.
  induction L as [|[j f] L IH]; intros cur NN C; [constructor|].
  apply Forall_cons_iff in NN. destruct NN as (N1 & NN). cbn in N1.
  pose proof (total_nonneg L NN). rewrite of_cons, total_cons. cbn [ats].
  specialize (IH (cur + f_size f) NN ltac:(lia)).
  assert (IH' : Forall (fun p => 0 <= fst p /\ 0 <= f_size (snd p) /\
    fst p + f_size (snd p) <= cur + (f_size f + total L)) (combine (ats i (cur + f_size f) L) (of i L))).
  { eapply Forall_impl; [|exact IH]. cbn. intros [o g]; cbn. lia. }
  destruct (Nat.eqb j i); cbn [app combine]; [constructor; [cbn; lia|]|]; exact IH'.
Qed.

Lemma total_tracks n L : Forall (fun p => (fst p < n)%nat) L ->
  total L = zsum (map (fun i => sizes (of i L)) (seq 0 n)).
Proof.
  induction 1 as [|[j f] L I F IH]; cbn [fst] in *.
  - cbn. induction (seq 0 n) as [|a l IHl]; cbn; [reflexivity|]. unfold zsum in *. lia.
  - rewrite total_cons, IH.
    rewrite (zsum_upd (fun i => sizes (of i ((j, f) :: L))) (fun i => sizes (of i L)) j n I).
    + rewrite of_cons, Nat.eqb_refl. cbn [app]. change (sizes (f :: of j L)) with (f_size f + sizes (of j L)). lia.
    + intros k D. rewrite of_cons. replace (Nat.eqb j k) with false by lia. reflexivity.
Qed.

Lemma zsum_tracks (g : list fr -> Z) L ts : forall ix,
  (forall i t, nth_error ts i = Some t -> of (ix + i) L = t_frames t) ->
  zsum (map (fun i => g (of i L)) (seq ix (length ts))) = fold_right (fun t n => g (t_frames t) + n) 0 ts.
Proof.
  induction ts as [|t ts IH]; intros ix H; [reflexivity|].
  cbn [length seq map zsum fold_right]. pose proof (H 0%nat t eq_refl) as E. rewrite Nat.add_0_r in E.
  fold (zsum (map (fun i => g (of i L)) (seq (S ix) (length ts)))). rewrite E, IH; [reflexivity|].
  intros i t' N. rewrite <- (H (S i) t' N). f_equal. lia.
Qed.

Lemma frames_nonneg s : Forall good_track (s_tracks s) -> nonneg (frames_of s).
Proof.
  intro G. destruct (frames_of_order s) as (F & O). apply Forall_forall. intros [i f] I.
  rewrite Forall_forall in F. pose proof (F _ I) as Hi. cbn in Hi.
  destruct (nth_error (s_tracks s) i) as [t|] eqn:N; [|apply nth_error_None in N; lia].
  specialize (O i t N). rewrite Forall_forall in G. destruct (G t (nth_error_In _ _ N)) as (G1 & _).
  rewrite Forall_forall in G1. assert (If : In f (t_frames t)).
  { rewrite <- O. unfold of. apply in_map_iff. exists (i, f). split; auto. apply filter_In. split; auto.
    cbn. apply Nat.eqb_refl. }
  destruct (G1 f If) as (H & _). unfold is_u32 in H. cbn. lia.
Qed.

Lemma ok_frs_av k d l : (k = Video \/ k = Audio) -> Forall (fun p => ok_fr k d (snd p)) l -> ok_frs k d l.
Proof.
  intros H F. induction F as [|[o f] l Ff F IH]; [exact I|].
  cbn [ok_frs snd] in *. split; auto. destruct H as [-> | ->]; exact IH.
Qed.

Lemma Forall_combine {A B} (P : B -> Prop) (a : list A) (b : list B) :
  Forall P b -> Forall (fun p => P (snd p)) (combine a b).
Proof.
  intro F. revert a. induction F as [|y b Py F IH]; intros [|x a]; cbn; constructor; auto.
Qed.

Lemma good_ok_frs t offs : good_track t -> ok_frs (t_type t) (delay0 t) (combine offs (t_frames t)).
Proof.
  intros (F & _ & G). destruct (t_type t) eqn:K.
  - apply ok_frs_av; [auto|]. destruct G as (G & _). apply Forall_combine.
    rewrite first_delay_delay0 by auto. rewrite Forall_forall in *. intros f I.
    destruct (F f I) as (A & B & C). pose proof (G f I). cbn. repeat split; try apply A; try apply B; try apply C; try lia.
  - apply ok_frs_av; [auto|]. apply Forall_combine. eapply Forall_impl; [|exact F].
    cbn. intros f (A & B & C). repeat split; try apply A; try apply B; try apply C.
  - destruct G as (_ & G). unfold delay0. rewrite K.
    destruct (t_frames t) as [|f [|? ?]]; cbn in G; try lia; destruct offs as [|o offs]; try exact I.
    apply Forall_cons_iff in F. destruct F as ((A & B & C) & _).
    replace (combine (o :: offs) [f]) with [(o, f)] by (destruct offs; reflexivity).
    cbn. repeat split; try apply A; try apply B; try apply C; lia.
Qed.

(* ------------------------------------------------------------------ *)
(* The header                                                           *)

Definition moof_of (s : segm) (sdi : Z) (x : ext) : Z :=
  moof_size s sdi x (zsum (map (runs_of (frames_of s)) (seq 0 (length (s_tracks s))))).

Lemma header_gen s sdi x xb :
  let L := frames_of s in let M := moof_of s sdi x in
  Forall good_track (s_tracks s) -> zlen (s_meta s) < 2 ^ 31 ->
  0 <= M -> M + 8 + total L < 2 ^ 31 ->
  Forall (fun t => zlen (t_frames t) < 2 ^ 26) (s_tracks s) ->
  Forall ok_box xb -> x_write x M = flat xb -> zlen (flat xb) = x_size x -> x_size x < 2 ^ 30 ->
  exists h ys,
    build_header s sdi x false = Ok (h, zlen h + total L) /\
    build_header s sdi x true = Ok ([], zlen h + total L) /\
    zlen h = pre_size s + M + 8 /\
    (forall body, zlen body = total L ->
       h ++ body = flat (pre_boxes s (M + 8 + total L) ++
                         [(MOOF, flat ((MFHD, be 4 0 ++ be 4 (s_index s)) :: ys)); (MDAT, body)])) /\
    8 + zlen (flat ((MFHD, be 4 0 ++ be 4 (s_index s)) :: ys)) = M /\
    trafs_are (pre_size s) (M + 8) sdi 0 xb L (s_tracks s) ys /\
    Forall ok_box ys /\ Forall (fun y => fst y = TRAF) ys.
Proof.
  intros L M G Hm M0 M1 Fn Xk Xw Xs Xb.
  destruct (frames_of_order s) as (FI & FO). fold L in FI, FO.
  pose proof (frames_nonneg s G) as NN. fold L in NN. pose proof (total_nonneg L NN) as T0.
  set (vs0 := map (fun _ : track => Outs [] None) (s_tracks s)).
  assert (Lv : length vs0 = length (s_tracks s)) by (unfold vs0; apply map_length).
  destruct (offsets_spec L vs0 0 0) as (vs & Eo & Lvs & Hv); auto; try lia.
  { rewrite Lv. exact FI. }
  { unfold vs0. apply Forall_forall. intros v Iv. apply in_map_iff in Iv. destruct Iv as (t & <- & _). exact I. }
  rewrite !Z.add_0_l in Eo.
  assert (En : nsws vs0 0 L = zsum (map (runs_of L) (seq 0 (length (s_tracks s))))).
  { unfold nsws. rewrite Lv. f_equal. apply map_ext_in. intros i Hi. apply in_seq in Hi. unfold runs_of. f_equal.
    unfold vs0. destruct (nth_error (s_tracks s) i) as [t|] eqn:N; [|apply nth_error_None in N; lia].
    assert (Nv : nth_error (map (fun _ : track => Outs [] None) (s_tracks s)) i = Some (Outs [] None))
      by now rewrite (map_nth_error _ _ _ N).
    now rewrite (nth_error_nth _ _ _ Nv). }
  destruct (trafs_ok (pre_size s) M sdi x xb L (s_tracks s) vs 0) as (ys & Ty & Ta & Tk & Tn & Tz); auto; try lia.
  { intros i t v N1 N2. rewrite Nat.add_0_l.
    assert (Nv0 : nth_error vs0 i = Some (Outs [] None)) by (unfold vs0; now rewrite (map_nth_error _ _ _ N1)).
    destruct (Hv i _ Nv0) as (v' & Nv' & Ev'). rewrite N2 in Nv'. injection Nv' as <-. cbn in Ev'.
    split; [exact Ev'|]. split; [now apply FO|].
    pose proof (nth_error_In _ _ N1) as It. rewrite Forall_forall in G, Fn. specialize (G t It). specialize (Fn t It).
    split; [now apply good_ok_frs|]. split.
    { rewrite <- (FO i t N1). eapply Forall_impl; [|exact (ats_bounds i L 0 NN ltac:(lia))]. cbn. intros p. lia. }
    split; [rewrite ats_length; now rewrite (FO i t N1)|]. split; [exact Fn|].
    destruct (earliest_good t G). lia. }
  change (Z.of_nat 0) with 0 in Ty.
  set (mf := be 4 0 ++ be 4 (s_index s)).
  assert (Zmf : zlen mf = 8) by (unfold mf; rewrite zlen_app, !zlen_be; reflexivity).
  assert (Emf : mfhd (s_index s) = bx MFHD mf).
  { unfold mfhd, bx. rewrite Zmf. reflexivity. }
  assert (Zm : 8 + zlen (flat ((MFHD, mf) :: ys)) = M).
  { rewrite flat_cons, zlen_app, zlen_bx, Zmf, Tz by reflexivity. unfold M, moof_of, moof_size. fold L. lia. }
  set (h := flat (pre_boxes s (M + 8 + total L)) ++ bx MOOF (flat ((MFHD, mf) :: ys)) ++ atom_header (total L + 8) MDAT).
  assert (Zh : zlen h = pre_size s + M + 8).
  { unfold h, atom_header. rewrite !zlen_app, zlen_pre, zlen_bx, Zm, zlen_be by reflexivity.
    change (zlen MDAT) with 4. lia. }
  assert (Eh : (match match s_tracks s with [t] => Some t | _ => None end with Some _ => styp | None => [] end) ++
      (match s_tracks s with
       | t :: _ => if 0 <? emsg_size s then emsg (emsg_size s) s t else []
       | [] => []
       end) ++
      (match match s_tracks s with [t] => Some t | _ => None end with
       | Some t => sidx (t_scale t) (earliest t) (u32 (M + (total L + 8))) (total_dur t)
       | None => []
       end) ++
      atom_header M [109; 111; 111; 102] ++ mfhd (s_index s) ++
      trafs 0 sdi x M (s_tracks s) vs ++
      atom_header (total L + 8) [109; 100; 97; 116] = h).
  { replace (u32 (M + (total L + 8))) with (M + 8 + total L) by (unfold u32; rewrite Z.mod_small; lia).
    unfold h. rewrite <- pre_flat, <- !app_assoc.
    replace (match match s_tracks s with [t] => Some t | _ => None end with Some _ => styp | None => [] end)
      with (match s_tracks s with [_] => styp | _ => [] end) by (destruct (s_tracks s) as [|? [|? ?]]; reflexivity).
    replace (match match s_tracks s with [t] => Some t | _ => None end with
       | Some t => sidx (t_scale t) (earliest t) (M + 8 + total L) (total_dur t)
       | None => [] end) with
      (match s_tracks s with [t] => sidx (t_scale t) (earliest t) (M + 8 + total L) (total_dur t) | _ => [] end)
      by (destruct (s_tracks s) as [|? [|? ?]]; reflexivity).
    do 3 f_equal. unfold bx. rewrite Zm, flat_cons, <- Emf, Ty, <- !app_assoc. reflexivity. }
  assert (Eps : match match s_tracks s with [t] => Some t | _ => None end with Some _ => 24 | None => 0 end +
     emsg_size s + match match s_tracks s with [t] => Some t | _ => None end with
      | Some t => if earliest t >? 2 ^ 32 - 1 then 52 else 44 | None => 0 end = pre_size s).
  { unfold pre_size. destruct (s_tracks s) as [|? [|? ?]]; reflexivity. }
  assert (Em : moof_size s sdi x (nsws vs0 0 L) = M) by (unfold M, moof_of; fold L; now rewrite En).
  exists h, ys. split; [|split; [|split; [exact Zh|split; [|split; [exact Zm|auto]]]]].
  - unfold build_header. fold L vs0. rewrite Eo. cbv zeta beta iota. rewrite Em, Eps, Eh.
    rewrite Zh. rewrite Z.eqb_refl. do 2 f_equal. lia.
  - unfold build_header. fold L vs0. rewrite Eo. cbv zeta beta iota. rewrite Em, Eps. do 2 f_equal. lia.
  - intros body Zb. unfold h. rewrite flat_app, <- !app_assoc. f_equal. rewrite !flat_cons. f_equal.
    unfold bx. rewrite Zb. change (flat []) with (@nil Z). rewrite app_nil_r. do 2 f_equal. lia.
Qed.

Lemma file_boxes s sz (ys : list (list Z * list Z)) mf body :
  zlen (s_meta s) < 2 ^ 31 -> 8 + zlen (flat ((MFHD, mf) :: ys)) < 2 ^ 31 -> zlen body < 2 ^ 31 ->
  boxes (flat (pre_boxes s sz ++ [(MOOF, flat ((MFHD, mf) :: ys)); (MDAT, body)])) =
  Some (locate 0 (pre_boxes s sz) ++
        [(zlen (flat (pre_boxes s sz)), MOOF, flat ((MFHD, mf) :: ys));
         (zlen (flat (pre_boxes s sz)) + 8 + zlen (flat ((MFHD, mf) :: ys)), MDAT, body)]).
Proof.
  intros Hm A B. pose proof (pre_ok s sz Hm) as P. rewrite boxes_flat.
  - destruct (locate_app (pre_boxes s sz) 0 [(MOOF, flat ((MFHD, mf) :: ys)); (MDAT, body)]) as [-> |(x & I & X)].
    + cbn [locate]. rewrite !Z.add_0_l. reflexivity.
    + exfalso. rewrite Forall_forall in P. destruct (P x I). auto.
  - apply Forall_app. split; [exact P|]. constructor; [|constructor; [|constructor]]; (split; [reflexivity|cbn [snd]; lia]).
Qed.

Lemma named_app n a b : named n (a ++ b) = named n a ++ named n b.
Proof. apply filter_app. Qed.

Lemma named_none n l : forall pos, Forall (fun x => fst x <> n) l -> named n (locate pos l) = [].
Proof.
  intros pos F. pose proof (named_pick n l pos) as E. rewrite pick_none in E by auto.
  destruct (named n (locate pos l)); [reflexivity|discriminate].
Qed.

Lemma demux_gen s sdi xb L M ys body mf sz file :
  zlen (s_meta s) < 2 ^ 31 -> zlen body < 2 ^ 31 -> M < 2 ^ 31 ->
  file = flat (pre_boxes s sz ++ [(MOOF, flat ((MFHD, mf) :: ys)); (MDAT, body)]) ->
  8 + zlen (flat ((MFHD, mf) :: ys)) = M -> zlen mf = 8 ->
  trafs_are (pre_size s) (M + 8) sdi 0 xb L (s_tracks s) ys ->
  Forall ok_box ys -> Forall (fun y => fst y = TRAF) ys ->
  Forall ok_box xb -> Forall foreign xb -> zlen (s_tracks s) < 2 ^ 32 - 1 ->
  Forall (fun t => 0 <= earliest t < 2 ^ 64) (s_tracks s) ->
  demux file =
  Some (map (fun p => let '(i, t) := p in
              (Z.of_nat i + 1, play file (earliest t)
                 (smps (t_type t) (pre_size s + (M + 8)) (delay0 t) (combine (ats i 0 L) (t_frames t)))))
          (number 0 (s_tracks s))).
Proof.
  intros Hm Hb HM Ef Zm Zmf Ta Tk Tn Xk Xf Hn He. unfold demux.
  assert (Eb : boxes file = Some (locate 0 (pre_boxes s sz) ++
        [(pre_size s, MOOF, flat ((MFHD, mf) :: ys)); (pre_size s + M, MDAT, body)])).
  { rewrite Ef, file_boxes by (auto; lia). rewrite zlen_pre.
    replace (pre_size s + 8 + zlen (flat ((MFHD, mf) :: ys))) with (pre_size s + M) by lia. reflexivity. }
  rewrite Eb, !named_app. pose proof (pre_names s sz) as PN.
  rewrite !named_none by (eapply Forall_impl; [|exact PN]; cbn; intros x (? & ?); auto).
  cbn [app]. change (named MOOF [(pre_size s, MOOF, flat ((MFHD, mf) :: ys)); (pre_size s + M, MDAT, body)])
    with [(pre_size s, MOOF, flat ((MFHD, mf) :: ys))].
  change (named MDAT [(pre_size s, MOOF, flat ((MFHD, mf) :: ys)); (pre_size s + M, MDAT, body)])
    with [(pre_size s + M, MDAT, body)].
  cbv iota beta. change (b_body (pre_size s, MOOF, flat ((MFHD, mf) :: ys))) with (flat ((MFHD, mf) :: ys)).
  change (b_pos (pre_size s, MOOF, flat ((MFHD, mf) :: ys))) with (pre_size s).
  rewrite boxes_flat.
  2:{ constructor; auto. split; [reflexivity|]. cbn [snd]. rewrite Zmf. lia. }
  rewrite all_map, named_pick.
  replace (pick TRAF ((MFHD, mf) :: ys)) with (map snd ys).
  2:{ change ((MFHD, mf) :: ys) with ([(MFHD, mf)] ++ ys). rewrite pick_app, (pick_all TRAF ys) by auto. reflexivity. }
  rewrite <- all_map. rewrite (trafs_are_demux file _ _ _ _ _ Xk Xf _ _ _ Ta); auto. lia.
Qed.
