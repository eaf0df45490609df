From Coq Require Import ZArith List Bool Lia ZifyBool.
From Verif Require Import Lists Bytes Fmp4Model Fmp4Spec Fmp4Proofs.
Import ListNotations.
Open Scope Z_scope.

(* ------------------------------------------------------------------ *)
(* Slices and numbers                                                   *)

Lemma slice0 n a l : zlen a = n -> slice 0 n (a ++ l) = a.
Proof. intros <-. unfold slice, zlen. cbn. rewrite Nat2Z.id. apply firstn_app_exact. Qed.

Lemma slice_skip a b k n l : zlen a = k -> k <= b -> slice b n (a ++ l) = slice (b - k) n l.
Proof.
  intros <- H. unfold slice. f_equal. unfold zlen in *.
  rewrite skipn_app. rewrite skipn_all2 by lia. cbn. f_equal. lia.
Qed.

Lemma skipn_zlen {A} (a l : list A) k : zlen a = k -> skipn (Z.to_nat k) (a ++ l) = l.
Proof. intros <-. unfold zlen. rewrite Nat2Z.id. apply skipn_app_exact. Qed.

Lemma unbe_be_small n z : 0 <= z < 256 ^ Z.of_nat n -> unbe (be n z) = z.
Proof. intro H. rewrite unbe_be. now apply Z.mod_small. Qed.

Lemma unbe_be4 z : 0 <= z < 2 ^ 32 -> unbe (be 4 z) = z.
Proof. intro H. apply unbe_be_small. exact H. Qed.
Lemma unbe_be8 z : 0 <= z < 2 ^ 64 -> unbe (be 8 z) = z.
Proof. intro H. apply unbe_be_small. exact H. Qed.

Lemma signed_be4 z : - 2 ^ 31 <= z < 2 ^ 31 -> signed (unbe (be 4 z)) = z.
Proof.
  intro H. rewrite unbe_be. change (256 ^ Z.of_nat 4) with (2 ^ 32). unfold signed.
  destruct (Z.ltb_spec z 0).
  - replace (z mod 2 ^ 32) with (z + 2 ^ 32).
    + replace (z + 2 ^ 32 <? 2 ^ 31) with false by lia. lia.
    + apply (Z.mod_unique z (2 ^ 32) (-1)); lia.
  - rewrite Z.mod_small by lia. now replace (z <? 2 ^ 31) with true by lia.
Qed.

(* ------------------------------------------------------------------ *)
(* Boxes                                                                *)

Definition bx (n p : list Z) : list Z := atom_header (8 + zlen p) n ++ p.
Definition ok_box (x : list Z * list Z) : Prop := length (fst x) = 4%nat /\ 8 + zlen (snd x) < 2 ^ 32.
Definition flat (l : list (list Z * list Z)) : list Z := concat (map (fun x => bx (fst x) (snd x)) l).

Fixpoint locate (pos : Z) (l : list (list Z * list Z)) : list box :=
  match l with
  | [] => []
  | (n, p) :: l => (pos, n, p) :: locate (pos + 8 + zlen p) l
  end.

Lemma zlen_bx n p : length n = 4%nat -> zlen (bx n p) = 8 + zlen p.
Proof.
  intro H. unfold bx, atom_header. rewrite !zlen_app, zlen_be. unfold zlen at 1. rewrite H. lia.
Qed.

Lemma flat_cons n p l : flat ((n, p) :: l) = bx n p ++ flat l.
Proof. reflexivity. Qed.
Lemma flat_app a b : flat (a ++ b) = flat a ++ flat b.
Proof. unfold flat. now rewrite map_app, concat_app. Qed.

Lemma boxes_from_flat l : forall fuel pos, Forall ok_box l -> (length (flat l) <= fuel)%nat ->
  boxes_from fuel pos (flat l) = Some (locate pos l).
Proof.
  induction l as [|[n p] l IH]; intros fuel pos F H.
  - destruct fuel; reflexivity.
  - apply Forall_cons_iff in F. destruct F as ((Ln & Lp) & F). cbn [fst snd] in Ln, Lp.
    rewrite flat_cons in *.
    assert (Zb : zlen (bx n p) = 8 + zlen p) by now apply zlen_bx.
    pose proof (zlen_nonneg p). pose proof (zlen_nonneg (flat l)).
    destruct fuel as [|fuel].
    { exfalso. rewrite app_length in H. unfold zlen in Zb. lia. }
    assert (S0 : slice 0 4 (bx n p ++ flat l) = be 4 (8 + zlen p)).
    { unfold bx, atom_header. rewrite <- !app_assoc. apply slice0. now rewrite zlen_be. }
    assert (S4 : slice 4 4 (bx n p ++ flat l) = n).
    { unfold bx, atom_header. rewrite <- !app_assoc. rewrite (slice_skip _ _ 4); [|apply zlen_be|lia].
      apply slice0. unfold zlen. lia. }
    assert (S8 : slice 8 (8 + zlen p - 8) (bx n p ++ flat l) = p).
    { unfold bx, atom_header. rewrite <- !app_assoc. rewrite (slice_skip _ _ 4); [|apply zlen_be|lia].
      rewrite (slice_skip _ _ 4); [|unfold zlen; lia|lia]. apply slice0. lia. }
    cbn [boxes_from locate].
    destruct (bx n p ++ flat l) as [|x r] eqn:E.
    { apply (f_equal zlen) in E. rewrite zlen_app in E. change (zlen (@nil Z)) with 0 in E. lia. }
    rewrite <- E in *. clear E x r. rewrite S0, unbe_be4 by lia.
    rewrite zlen_app, Zb.
    replace ((8 <=? 8 + zlen p) && (8 + zlen p <=? 8 + zlen p + zlen (flat l))) with true by lia.
    rewrite (skipn_zlen _ _ _ Zb). rewrite IH; auto.
    + rewrite S4, S8. replace (pos + (8 + zlen p)) with (pos + 8 + zlen p) by lia. reflexivity.
    + rewrite app_length in H. unfold zlen in Zb. lia.
Qed.

Lemma boxes_flat l : Forall ok_box l -> boxes (flat l) = Some (locate 0 l).
Proof. intro F. apply boxes_from_flat; auto. Qed.

Lemma name_eqb_refl n : name_eqb n n = true.
Proof. unfold name_eqb. destruct (list_eq_dec Z.eq_dec n n); congruence. Qed.

Lemma locate_app a : forall pos b, locate pos (a ++ b) = locate pos a ++ locate (pos + zlen (flat a)) b
  \/ exists x, In x a /\ length (fst x) <> 4%nat.
Proof.
  induction a as [|[n p] a IH]; intros pos b.
  - left. cbn. now rewrite Z.add_0_r.
  - destruct (Nat.eq_dec (length n) 4) as [L|L].
    + destruct (IH (pos + 8 + zlen p) b) as [E|(x & I & X)].
      * left. cbn [app locate]. rewrite E. cbn [app]. do 3 f_equal.
        rewrite flat_cons, zlen_app, zlen_bx by auto. lia.
      * right. exists x. split; [now right|auto].
    + right. exists (n, p). split; [now left|exact L].
Qed.

Lemma named_locate n l : forall pos, named n (locate pos l) = named n (locate pos l).
Proof. reflexivity. Qed.

(* ------------------------------------------------------------------ *)
(* Runs                                                                 *)

Definition samp (k : mtype) (d : Z) (f : fr) (at_ : Z) : sample :=
  match k with
  | Video => Sample at_ (f_size f) (f_dur f) (Some (if f_key f then 33554432 else 16842752)) (f_delay f - d)
  | Audio => Sample at_ (f_size f) (f_dur f) None 0
  | Webvtt => Sample at_ (f_size f) (f_delay f) None d
  end.

Definition ok_fr (k : mtype) (d : Z) (f : fr) : Prop :=
  is_u32 (f_size f) /\ is_u32 (f_dur f) /\ is_u32 (f_delay f) /\
  match k with Video => - 2 ^ 31 <= f_delay f - d < 2 ^ 31 | Audio => True | Webvtt => is_u32 d end.

(* The frames of a run, each with its d. *)
Fixpoint smp (k : mtype) (at_ : Z) (os : list (Z * fr)) : list sample :=
  match os with
  | [] => []
  | (d, f) :: os => samp k d f at_ :: smp k (at_ + f_size f) os
  end.

Definition ents (k : mtype) (os : list (Z * fr)) : list Z :=
  concat (map (fun p => trun_frame k (fst p) (snd p)) os).

Lemma field4s v l : field true (be 4 v ++ l) = Some (Some (unbe (be 4 v)), l).
Proof.
  unfold field. rewrite zlen_app, zlen_be. pose proof (zlen_nonneg l).
  replace (4 <=? Z.of_nat 4 + zlen l) with true by lia.
  pose proof (firstn_app_exact (be 4 v) l) as S. rewrite be_length in S. rewrite S.
  pose proof (skipn_app_exact (be 4 v) l) as S'. rewrite be_length in S'. now rewrite S'.
Qed.

Lemma field4 v l : 0 <= v < 2 ^ 32 -> field true (be 4 v ++ l) = Some (Some v, l).
Proof. intro H. rewrite field4s, unbe_be4 by auto. reflexivity. Qed.

Lemma run_samples_ents k os : forall at_,
  Forall (fun p => ok_fr k (fst p) (snd p)) os ->
  run_samples (match k with Video => true | _ => false end)
    (match k with Video => 3841 | Audio => 769 | Webvtt => 2817 end) at_ (length os) (ents k os) =
  Some (smp k at_ os).
Proof.
  induction os as [|[d f] os IH]; intros at_ F; [reflexivity|].
  apply Forall_cons_iff in F. destruct F as ((Fs & Fd & Fl & Fk) & F). cbn [fst snd] in *.
  cbn [length ents map concat smp]. fold (ents k os). specialize (IH (at_ + f_size f) F).
  destruct k; cbn [trun_frame fst snd]; rewrite <- ?app_assoc.
  - cbn [run_samples]. change (Z.testbit 3841 8) with true. change (Z.testbit 3841 9) with true.
    change (Z.testbit 3841 10) with true. change (Z.testbit 3841 11) with true.
    rewrite !field4 by (try exact Fs; try exact Fd; destruct (f_key f); lia).
    rewrite field4s, IH. cbn [samp]. rewrite signed_be4 by lia. reflexivity.
  - cbn [run_samples]. change (Z.testbit 769 8) with true. change (Z.testbit 769 9) with true.
    change (Z.testbit 769 10) with false. change (Z.testbit 769 11) with false.
    rewrite !field4 by (try exact Fs; try exact Fd). cbn [field]. rewrite IH. reflexivity.
  - cbn [run_samples]. change (Z.testbit 2817 8) with true. change (Z.testbit 2817 9) with true.
    change (Z.testbit 2817 10) with false. change (Z.testbit 2817 11) with true.
    rewrite !field4 by (try exact Fs; try exact Fd; try exact Fl; exact Fk).
    change (field false (be 4 d ++ ents Webvtt os)) with (Some (@None Z, be 4 d ++ ents Webvtt os)).
    cbv iota beta. rewrite field4 by exact Fk. rewrite IH. reflexivity.
Qed.

Definition run_body (k : mtype) (base start : Z) (os : list (Z * fr)) : list Z :=
  be 4 (trun_flags k) ++ be 4 (zlen os) ++ be 4 (u32 (base + start)) ++ ents k os.

Lemma zlen_trun_frame k d f : zlen (trun_frame k d f) = trun_size k.
Proof. destruct k; cbn [trun_frame]; rewrite !zlen_app, !zlen_be; reflexivity. Qed.

Lemma zlen_ents k os : zlen (ents k os) = trun_size k * zlen os.
Proof.
  induction os as [|p os IH]; [unfold zlen; cbn; lia|].
  cbn [ents map concat]. fold (ents k os). rewrite zlen_app, IH, zlen_trun_frame, zlen_cons. lia.
Qed.

Lemma run_run k moof base start os :
  Forall (fun p => ok_fr k (fst p) (snd p)) os -> zlen os < 2 ^ 32 ->
  0 <= base + start < 2 ^ 31 ->
  run moof (run_body k base start os) = Some (smp k (moof + (base + start)) os).
Proof.
  intros F L B. unfold run, run_body.
  set (rest := be 4 (zlen os) ++ be 4 (u32 (base + start)) ++ ents k os).
  pose proof (zlen_nonneg os). pose proof (zlen_nonneg (ents k os)).
  assert (Z1 : zlen (be 4 (trun_flags k) ++ rest) = 12 + zlen (ents k os)).
  { unfold rest. rewrite !zlen_app, !zlen_be. lia. }
  rewrite Z1. replace (12 <=? 12 + zlen (ents k os)) with true by lia.
  assert (Ev : unbe (slice 0 1 (be 4 (trun_flags k) ++ rest)) = match k with Video => 1 | _ => 0 end).
  { destruct k; reflexivity. }
  assert (Ef : unbe (slice 1 3 (be 4 (trun_flags k) ++ rest)) =
    match k with Video => 3841 | Audio => 769 | Webvtt => 2817 end).
  { destruct k; reflexivity. }
  rewrite Ev, Ef.
  assert (S4 : slice 4 4 (be 4 (trun_flags k) ++ rest) = be 4 (zlen os)).
  { rewrite (slice_skip _ _ 4); [|apply zlen_be|lia]. apply slice0. now rewrite zlen_be. }
  assert (S8 : slice 8 4 (be 4 (trun_flags k) ++ rest) = be 4 (u32 (base + start))).
  { rewrite (slice_skip _ _ 4); [|apply zlen_be|lia]. unfold rest.
    rewrite (slice_skip _ _ 4); [|apply zlen_be|lia]. apply slice0. now rewrite zlen_be. }
  assert (Sk : skipn 12 (be 4 (trun_flags k) ++ rest) = ents k os).
  { unfold rest. rewrite !app_assoc. pose proof (skipn_app_exact ((be 4 (trun_flags k) ++ be 4 (zlen os)) ++ be 4 (u32 (base + start))) (ents k os)) as S.
    rewrite !app_length, !be_length in S. exact S. }
  rewrite S4, S8, Sk. rewrite (unbe_be4 (zlen os)) by lia. unfold u32. rewrite Z.mod_small by lia.
  rewrite signed_be4 by lia. unfold zlen. rewrite Nat2Z.id.
  pose proof (run_samples_ents k os (moof + (base + start)) F) as R.
  destruct k; cbn [negb andb]; exact R.
Qed.

Lemma trun_header_bx k base start os :
  trun_header (u32 (base + start)) (zlen os) (trun_size k) (trun_flags k) ++ ents k os =
  bx TRUN (run_body k base start os).
Proof.
  unfold trun_header, bx, run_body. rewrite <- !app_assoc. f_equal. f_equal.
  rewrite !zlen_app, !zlen_be, zlen_ents. unfold zlen. lia.
Qed.

(* d of the next frame. *)
Definition nextd (k : mtype) (d : Z) (f : fr) : Z :=
  match k with Webvtt => u32 (d + f_dur f) | _ => d end.

Fixpoint ok_frs (k : mtype) (d : Z) (l : list (Z * fr)) : Prop :=
  match l with [] => True | (_, f) :: l => ok_fr k d f /\ ok_frs k (nextd k d f) l end.

(* The samples of the frames of a track, wherever they are. *)
Fixpoint smps (k : mtype) (b d : Z) (l : list (Z * fr)) : list sample :=
  match l with
  | [] => []
  | (o, f) :: l => samp k d f (b + o) :: smps k b (nextd k d f) l
  end.

Lemma smp_app k os : forall at_ os', smp k at_ (os ++ os') =
  smp k at_ os ++ smp k (at_ + sizes (map snd os)) os'.
Proof.
  induction os as [|[d f] os IH]; intros at_ os'; cbn [app smp map snd].
  - cbn. now rewrite Z.add_0_r.
  - rewrite IH. do 3 f_equal. cbn. unfold sizes. lia.
Qed.

Lemma ents_app k a b : ents k (a ++ b) = ents k a ++ ents k b.
Proof. unfold ents. now rewrite map_app, concat_app. Qed.

Lemma all_app {A B} (f : A -> option B) a b ra rb :
  all f a = Some ra -> all f b = Some rb -> all f (a ++ b) = Some (ra ++ rb).
Proof.
  revert ra. induction a as [|x a IH]; intros ra Ha Hb; cbn in *.
  - injection Ha as <-. exact Hb.
  - destruct (f x), (all f a); try discriminate. injection Ha as <-. now rewrite (IH l).
Qed.

Lemma truns_open k moof base l : forall d start os,
  Forall (fun p => ok_fr k (fst p) (snd p)) os -> ok_frs k d l -> os <> [] ->
  0 <= base -> 0 <= start -> 0 <= sizes (map snd os) ->
  Forall (fun p => 0 <= fst p /\ 0 <= f_size (snd p) /\ base + fst p + f_size (snd p) < 2 ^ 31) l ->
  base + start + sizes (map snd os) < 2 ^ 31 ->
  zlen os + zlen l < 2 ^ 26 ->
  exists bs rs,
    truns k base l d (start + sizes (map snd os)) (Some (start, zlen os, ents k os)) = flat bs /\
    Forall (fun x => fst x = TRUN) bs /\ Forall ok_box bs /\
    all (fun x => run moof (snd x)) bs = Some rs /\
    concat rs = smp k (moof + (base + start)) os ++ smps k (moof + base) d l /\
    zlen (flat bs) = 20 * (1 + sws (Some (start + sizes (map snd os))) l) +
                     trun_size k * (zlen os + zlen l).
Proof.
  induction l as [|[o f] l IH]; intros d start os Fo Fl Ne B S So Fr Hb Hn.
  - exists [(TRUN, run_body k base start os)], [smp k (moof + (base + start)) os].
    cbn [truns]. rewrite trun_header_bx. split; [unfold flat; cbn; now rewrite app_nil_r|].
    assert (Zr : zlen (run_body k base start os) = 12 + trun_size k * zlen os).
    { unfold run_body. rewrite !zlen_app, !zlen_be, zlen_ents. lia. }
    pose proof (zlen_nonneg os). change (zlen (@nil (Z * fr))) with 0 in *.
    split; [repeat constructor|]. split.
    { constructor; [|constructor]. split; [reflexivity|]. cbn [snd]. rewrite Zr. destruct k; cbn [trun_size]; lia. }
    cbn [all snd]. rewrite run_run by (auto; lia). split; [reflexivity|].
    split; [cbn; now rewrite app_nil_r|]. cbn [sws].
    rewrite flat_cons, zlen_app, zlen_bx, Zr by reflexivity. change (zlen (flat [])) with 0. lia.
  - cbn [truns]. apply Forall_cons_iff in Fr. destruct Fr as ((Fr0 & Fr1 & Fr2) & Fr). cbn [fst snd] in Fr0, Fr1, Fr2.
    cbn [ok_frs] in Fl. destruct Fl as (Of & Fl).
    rewrite zlen_cons in Hn. pose proof (zlen_nonneg os). pose proof (zlen_nonneg l).
    destruct (Z.eqb_spec o (start + sizes (map snd os))) as [E|E]; cbn [negb].
    + assert (Es : sizes (map snd (os ++ [(d, f)])) = sizes (map snd os) + f_size f).
      { rewrite map_app. clear. unfold sizes. induction os as [|p os IH]; cbn [map app fold_right snd] in *; lia. }
      assert (Eu : u32 (start + sizes (map snd os) + f_size f) = start + sizes (map snd (os ++ [(d, f)]))).
      { unfold u32. rewrite Z.mod_small by lia. lia. }
      rewrite Eu. destruct (IH (nextd k d f) start (os ++ [(d, f)])) as (bs & rs & T & N & K & A & C & Zl); auto.
      { apply Forall_app. split; auto. }
      { intro H1. apply app_eq_nil in H1. destruct H1; discriminate. }
      { lia. } { lia. } { rewrite zlen_app, zlen_cons. change (zlen (@nil (Z * fr))) with 0. lia. }
      exists bs, rs. replace (zlen os + 1) with (zlen (os ++ [(d, f)])) by
        (rewrite zlen_app, zlen_cons; change (zlen (@nil (Z * fr))) with 0; lia).
      replace (ents k os ++ trun_frame k d f) with (ents k (os ++ [(d, f)])) by
        (rewrite ents_app; unfold ents at 2; cbn; now rewrite app_nil_r).
      fold (nextd k d f). split; [exact T|]. split; [exact N|]. split; [exact K|].
      split; [exact A|]. split.
      { rewrite C, smp_app, <- app_assoc. f_equal. cbn [smp app smps]. do 2 f_equal. lia. }
      rewrite Zl, Es, zlen_app, !zlen_cons. change (zlen (@nil (Z * fr))) with 0.
      cbn [sws]. replace (o =? start + sizes (map snd os)) with true by lia. subst o.
      rewrite Z.add_assoc. lia.
    + destruct (IH (nextd k d f) o [(d, f)]) as (bs & rs & T & N & K & A & C & Zl); auto; try discriminate.
      { cbn. lia. } { cbn. lia. }
      { rewrite zlen_cons. change (zlen (@nil (Z * fr))) with 0. lia. }
      replace (sizes (map snd [(d, f)])) with (f_size f) in * by (cbn; lia).
      exists ((TRUN, run_body k base start os) :: bs), (smp k (moof + (base + start)) os :: rs).
      assert (Zr : zlen (run_body k base start os) = 12 + trun_size k * zlen os).
      { unfold run_body. rewrite !zlen_app, !zlen_be, zlen_ents. lia. }
      split.
      { rewrite flat_cons, <- T, trun_header_bx. f_equal.
        replace (u32 (o + f_size f)) with (o + f_size f) by (unfold u32; rewrite Z.mod_small; lia).
        unfold ents. cbn [map concat fst snd]. now rewrite app_nil_r. }
      split; [now constructor|]. split.
      { constructor; [|exact K]. split; [reflexivity|]. cbn [snd]. rewrite Zr. destruct k; cbn [trun_size]; lia. }
      cbn [all snd]. rewrite run_run by (auto; lia). rewrite A. split; [reflexivity|]. split.
      { cbn [concat]. rewrite C. cbn [smp smps app]. f_equal. f_equal. f_equal. lia. }
      rewrite flat_cons, zlen_app, zlen_bx, Zr, Zl by reflexivity. cbn [sws].
      replace (o =? start + sizes (map snd os)) with false by lia.
      rewrite !zlen_cons. change (zlen (@nil (Z * fr))) with 0. lia.
Qed.

Lemma truns_none k moof base l d :
  ok_frs k d l -> 0 <= base ->
  Forall (fun p => 0 <= fst p /\ 0 <= f_size (snd p) /\ base + fst p + f_size (snd p) < 2 ^ 31) l ->
  zlen l < 2 ^ 26 ->
  exists bs rs,
    truns k base l d (2 ^ 32 - 1) None = flat bs /\
    Forall (fun x => fst x = TRUN) bs /\ Forall ok_box bs /\
    all (fun x => run moof (snd x)) bs = Some rs /\
    concat rs = smps k (moof + base) d l /\
    zlen (flat bs) = 20 * sws None l + trun_size k * zlen l.
Proof.
  intros Fl B Fr Hn. destruct l as [|[o f] l].
  - exists [], []. cbn. repeat split; try constructor. unfold zlen. cbn. lia.
  - cbn [truns app]. apply Forall_cons_iff in Fr. destruct Fr as ((Fr0 & Fr1 & Fr2) & Fr). cbn [fst snd] in Fr0, Fr1, Fr2.
    cbn [ok_frs] in Fl. destruct Fl as (Of & Fl). rewrite zlen_cons in Hn.
    replace (o =? 2 ^ 32 - 1) with false by lia. cbn [negb].
    destruct (truns_open k moof base l (nextd k d f) o [(d, f)]) as (bs & rs & T & N & K & A & C & Zl); auto; try discriminate.
    { cbn. lia. } { cbn. lia. }
    replace (sizes (map snd [(d, f)])) with (f_size f) in * by (cbn; lia).
    exists bs, rs. split.
    { rewrite <- T.
      replace (u32 (o + f_size f)) with (o + f_size f) by (unfold u32; rewrite Z.mod_small; lia).
      unfold ents. cbn [map concat fst snd]. now rewrite app_nil_r. }
    split; [exact N|]. split; [exact K|]. split; [exact A|]. split.
    { rewrite C. cbn [smp smps app]. f_equal. f_equal. lia. }
    rewrite Zl. cbn [sws]. rewrite !zlen_cons. change (zlen (@nil (Z * fr))) with 0. lia.
Qed.
