From Coq Require Import ZArith List Bool Lia ZifyBool.
From Verif Require Import Lists Bytes Fmp4Model Fmp4Spec.
Import ListNotations.
Open Scope Z_scope.

Lemma zlen_app {A} (a b : list A) : zlen (a ++ b) = zlen a + zlen b.
Proof. unfold zlen. rewrite app_length. lia. Qed.
Lemma zlen_cons {A} (a : A) b : zlen (a :: b) = 1 + zlen b.
Proof. unfold zlen. cbn [length]. lia. Qed.
Lemma zlen_nonneg {A} (a : list A) : 0 <= zlen a.
Proof. unfold zlen. lia. Qed.
Lemma zlen_be n z : zlen (be n z) = Z.of_nat n.
Proof. unfold zlen. now rewrite be_length. Qed.

(* ------------------------------------------------------------------ *)
(* The order                                                            *)

Definition of (i : nat) (L : list (nat * fr)) : list fr :=
  map snd (filter (fun p => Nat.eqb (fst p) i) L).

Lemma of_cons i j f L : of i ((j, f) :: L) = (if Nat.eqb j i then [f] else []) ++ of i L.
Proof. unfold of. cbn. destruct (Nat.eqb j i); reflexivity. Qed.

Lemma choose_some sel l : forall i best j,
  choose sel i l best = Some j ->
  (exists m, best = Some (j, m)) \/
  (exists k u, j = (i + k)%nat /\ nth_error l k = Some u /\ u_left u <> []).
Proof.
  induction l as [|u l IH]; intros i best j H; cbn in H.
  - destruct best as [[j' m]|]; [injection H as <-; eauto|discriminate].
  - destruct (u_left u) eqn:E.
    + destruct (IH _ _ _ H) as [?|(k & u' & -> & N & Q)]; [auto|].
      right. exists (S k), u'. split; [lia|auto].
    + destruct (IH _ _ _ H) as [(m & B)|(k & u' & -> & N & Q)].
      * destruct best as [[j' m']|].
        -- destruct (u_next u <? m'); injection B as <- <-; eauto.
           right. exists 0%nat, u. split; [lia|]. split; [reflexivity|congruence].
        -- injection B as <- <-. right. exists 0%nat, u. split; [lia|].
           split; [reflexivity|congruence].
      * right. exists (S k), u'. split; [lia|auto].
Qed.

Lemma choose_none sel l : forall i best,
  choose sel i l best = None -> best = None /\ Forall (fun u => u_left u = []) l.
Proof.
  induction l as [|u l IH]; intros i best H; cbn in H.
  - destruct best as [[? ?]|]; [discriminate|]. auto.
  - destruct (u_left u) eqn:E.
    + destruct (IH _ _ H) as [-> F]. auto.
    + destruct (IH _ _ H) as [B _]. destruct best as [[? ?]|]; [|discriminate].
      destruct (u_next u <? z); discriminate.
Qed.

Lemma concat_set_nth {A} (ls : list (list A)) i x : forall y,
  nth_error ls i = Some x ->
  (length (concat (set_nth ls i y)) + length x = length (concat ls) + length y)%nat.
Proof.
  revert i. induction ls as [|l ls IH]; intros [|i] y H; cbn in H; try discriminate.
  - injection H as ->. cbn [set_nth concat]. rewrite !app_length. lia.
  - cbn [set_nth concat]. rewrite !app_length. specialize (IH _ y H). lia.
Qed.

Lemma order_of fuel : forall sel us,
  (length (concat (map u_left us)) <= fuel)%nat ->
  Forall (fun p => (fst p < length us)%nat) (order fuel sel us) /\
  forall i u, nth_error us i = Some u -> of i (order fuel sel us) = u_left u.
Proof.
  induction fuel as [|fuel IH]; intros sel us H.
  - cbn. split; [constructor|]. intros i u N.
    assert (length (u_left u) <= 0)%nat; [|destruct (u_left u); [reflexivity|cbn in *; lia]].
    apply nth_error_split in N. destruct N as (a & b & -> & _).
    rewrite map_app, concat_app in H. cbn in H. rewrite !app_length in H. lia.
  - cbn [order]. destruct (choose sel 0 us None) as [j|] eqn:C.
    + destruct (choose_some _ _ _ _ _ C) as [[m B]|(k & u & -> & N & Q)]; [discriminate|].
      cbn [Nat.add]. rewrite N. unfold take. destruct (u_left u) as [|f l] eqn:E; [now elim Q|].
      set (u' := Stream (u_scale u) (u64 (u_next u + f_dur f)) l).
      destruct (IH (Some k) (set_nth us k u')) as (F & P).
      { pose proof (concat_set_nth (map u_left us) k (u_left u) l) as S.
        rewrite map_set_nth. cbn [u_left u'].
        specialize (S (map_nth_error _ _ _ N)). rewrite E in S. cbn in S. lia. }
      rewrite set_nth_length in F. split.
      * constructor; [|exact F]. cbn. apply nth_error_Some. congruence.
      * intros i v Ni. rewrite of_cons. destruct (Nat.eqb_spec k i) as [->|D].
        -- rewrite (P i u'). { replace v with u by congruence. rewrite E. reflexivity. }
           eapply nth_error_set_nth_eq; eauto. apply nth_error_Some. congruence.
        -- cbn. apply P. rewrite nth_error_set_nth_neq; auto.
    + destruct (choose_none _ _ _ _ C) as [_ F]. split; [constructor|].
      intros i u N. cbn. symmetry. rewrite Forall_forall in F. apply F. eapply nth_error_In; eauto.
Qed.

Lemma frames_of_order s :
  Forall (fun p => (fst p < length (s_tracks s))%nat) (frames_of s) /\
  forall i t, nth_error (s_tracks s) i = Some t -> of i (frames_of s) = t_frames t.
Proof.
  unfold frames_of. destruct (order_of (length (concat (map t_frames (s_tracks s)))) None
    (map stream_of (s_tracks s))) as (F & P).
  { rewrite map_map. apply Nat.eq_le_incl. reflexivity. }
  rewrite map_length in F. split; [exact F|]. intros i t N.
  rewrite (P i (stream_of t)); [reflexivity|]. now apply map_nth_error.
Qed.

(* ------------------------------------------------------------------ *)
(* The offsets                                                          *)

Definition total (L : list (nat * fr)) : Z := sizes (map snd L).

Fixpoint ats (i : nat) (cur : Z) (L : list (nat * fr)) : list Z :=
  match L with
  | [] => []
  | (j, f) :: L => (if Nat.eqb j i then [cur] else []) ++ ats i (cur + f_size f) L
  end.

Lemma ats_length i L : forall cur, length (ats i cur L) = length (of i L).
Proof.
  induction L as [|[j f] L IH]; intro cur; [reflexivity|].
  rewrite of_cons. cbn [ats]. destruct (Nat.eqb j i); cbn; now rewrite IH.
Qed.

(* How many runs there are: prev is the end of the frame before. *)
Fixpoint sws (prev : option Z) (l : list (Z * fr)) : Z :=
  match l with
  | [] => 0
  | (o, f) :: l =>
      (match prev with Some e => if o =? e then 0 else 1 | None => 1 end) +
      sws (Some (o + f_size f)) l
  end.

Definition prev_of (v : outs) : option Z :=
  match v_last v, v_offs v with Some z, o :: _ => Some (o + z) | _, _ => None end.

Definition zsum (l : list Z) : Z := fold_right Z.add 0 l.

Lemma zsum_upd (f g : nat -> Z) i n : (i < n)%nat -> (forall j, j <> i -> f j = g j) ->
  zsum (map f (seq 0 n)) = zsum (map g (seq 0 n)) + (f i - g i).
Proof.
  intros H E.
  enough (A : forall m k, zsum (map f (seq k m)) =
    zsum (map g (seq k m)) + (if (k <=? i)%nat && (i <? k + m)%nat then f i - g i else 0)).
  { rewrite A. replace ((0 <=? i)%nat && (i <? 0 + n)%nat) with true by lia. reflexivity. }
  clear n H. induction m as [|m IH]; intro k; cbn [seq map zsum fold_right].
  - destruct ((k <=? i)%nat && (i <? k + 0)%nat) eqn:B; lia.
  - fold (zsum (map f (seq (S k) m))) (zsum (map g (seq (S k) m))). rewrite IH.
    destruct (Nat.eq_dec k i) as [->|D].
    + replace ((S i <=? i)%nat && (i <? S i + m)%nat) with false by lia.
      replace ((i <=? i)%nat && (i <? i + S m)%nat) with true by lia. lia.
    + rewrite (E k D).
      replace ((k <=? i)%nat && (i <? k + S m)%nat) with ((S k <=? i)%nat && (i <? S k + m)%nat) by lia.
      lia.
Qed.

Definition nsws (vs : list outs) (cur : Z) (L : list (nat * fr)) : Z :=
  zsum (map (fun i => sws (prev_of (nth i vs (Outs [] None))) (combine (ats i cur L) (of i L)))
    (seq 0 (length vs))).

Definition ok_outs (v : outs) : Prop :=
  match v_last v, v_offs v with
  | Some z, o :: _ => 0 <= o + z < 2 ^ 32
  | None, [] => True
  | _, _ => False
  end.

Lemma total_cons i f L : total ((i, f) :: L) = f_size f + total L.
Proof. reflexivity. Qed.

Definition nonneg (L : list (nat * fr)) : Prop := Forall (fun p => 0 <= f_size (snd p)) L.

Lemma total_nonneg L : nonneg L -> 0 <= total L.
Proof. induction 1 as [|[i f] L ? ? IH]; [cbn; lia|]. rewrite total_cons. cbn in *. lia. Qed.

Lemma nth_set_nth_eq {A} (l : list A) i x d : (i < length l)%nat -> nth i (set_nth l i x) d = x.
Proof. revert i. induction l as [|a l IH]; intros [|i] H; cbn in *; try lia; auto. apply IH. lia. Qed.
Lemma nth_set_nth_neq {A} (l : list A) i j x d : i <> j -> nth j (set_nth l i x) d = nth j l d.
Proof. revert i j. induction l as [|a l IH]; intros [|i] [|j] H; cbn; auto; congruence. Qed.

Lemma sws_zero_prev l p q : l = [] -> sws p l = sws q l.
Proof. intros ->. reflexivity. Qed.

Lemma offsets_spec L : forall vs cur n,
  nonneg L -> Forall (fun p => (fst p < length vs)%nat) L -> Forall ok_outs vs ->
  0 <= cur -> cur + total L < 2 ^ 32 ->
  exists vs', offsets L vs cur n = (vs', cur + total L, n + nsws vs cur L) /\
    length vs' = length vs /\
    forall i v, nth_error vs i = Some v ->
      exists v', nth_error vs' i = Some v' /\ rev (v_offs v') = rev (v_offs v) ++ ats i cur L.
Proof.
  induction L as [|[i f] L IH]; intros vs cur n NN I K C T.
  - cbn. exists vs. split.
    { f_equal; [f_equal; unfold total; cbn; lia|]. unfold nsws.
      assert (zsum (map (fun i => sws (prev_of (nth i vs (Outs [] None))) (combine (ats i cur []) (of i [])))
        (seq 0 (length vs))) = 0); [|cbn in *; lia].
      cbn. generalize (seq 0 (length vs)). induction l; cbn in *; auto. }
    split; [reflexivity|]. intros i v N. exists v. rewrite app_nil_r. auto.
  - cbn [offsets]. apply Forall_cons_iff in I. destruct I as (I1 & I). cbn in I1.
    apply Forall_cons_iff in NN. destruct NN as (N1 & NN). cbn in N1.
    destruct (nth_error vs i) as [v|] eqn:N; [|apply nth_error_None in N; lia].
    pose proof (total_nonneg _ NN). rewrite total_cons in T.
    set (v' := Outs (cur :: v_offs v) (Some (f_size f))).
    assert (Ec : u32 (cur + f_size f) = cur + f_size f) by (unfold u32; rewrite Z.mod_small; lia).
    rewrite Ec.
    assert (Kv : ok_outs v). { rewrite Forall_forall in K. eapply K, nth_error_In; eauto. }
    set (sw := match v_last v with Some z => match v_offs v with o :: _ => negb (cur =? u32 (o + z)) | [] => true end
               | None => true end).
    destruct (IH (set_nth vs i v') (cur + f_size f) (if sw then n + 1 else n)) as (vs' & E & Lv & P); auto.
    { rewrite set_nth_length. auto. }
    { clear -K I1 C T H N1 v'. apply Forall_forall. intros x X. apply In_nth_error in X.
      destruct X as (k & X). destruct (Nat.eq_dec i k) as [<-|D].
      - rewrite nth_error_set_nth_eq in X by auto. injection X as <-.
        unfold v', ok_outs. cbn. lia.
      - rewrite nth_error_set_nth_neq in X by auto. rewrite Forall_forall in K.
        eapply K, nth_error_In; eauto. }
    { lia. } { lia. }
    exists vs'. rewrite set_nth_length in Lv. split; [|split; [exact Lv|]].
    + rewrite E. rewrite total_cons. f_equal; [f_equal; lia|].
      unfold nsws. rewrite set_nth_length.
      rewrite (zsum_upd
        (fun i0 => sws (prev_of (nth i0 vs (Outs [] None))) (combine (ats i0 cur ((i, f) :: L)) (of i0 ((i, f) :: L))))
        (fun i0 => sws (prev_of (nth i0 (set_nth vs i v') (Outs [] None))) (combine (ats i0 (cur + f_size f) L) (of i0 L)))
        i (length vs) I1).
      * cbn beta. rewrite nth_set_nth_eq by auto. rewrite of_cons. cbn [ats].
        rewrite Nat.eqb_refl. cbn [app combine sws].
        replace (prev_of v') with (Some (cur + f_size f)) by reflexivity.
        erewrite (nth_error_nth vs i); [|exact N].
        match goal with |- (if sw then _ else _) + ?S = _ + (_ + (?d + ?T - ?T)) =>
          assert (D : d = if sw then 1 else 0) end.
        { unfold sw, prev_of. unfold ok_outs in Kv.
          destruct (v_last v) as [z|], (v_offs v) as [|o l]; try tauto.
          unfold u32. rewrite Z.mod_small by lia. destruct (cur =? o + z); reflexivity. }
        rewrite D. destruct sw; lia.
      * intros j Dj. rewrite of_cons. cbn [ats]. replace (Nat.eqb i j) with false by (symmetry; apply Nat.eqb_neq; auto).
        cbn [app]. rewrite nth_set_nth_neq by auto. reflexivity.
    + intros j w Nj. destruct (Nat.eq_dec i j) as [<-|D].
      * destruct (P i v') as (v2 & N2 & R2); [apply nth_error_set_nth_eq; auto|].
        exists v2. split; [exact N2|]. rewrite R2. replace w with v by congruence.
        cbn [ats v' v_offs rev]. rewrite Nat.eqb_refl, <- app_assoc. reflexivity.
      * destruct (P j w) as (v2 & N2 & R2); [rewrite nth_error_set_nth_neq; auto|].
        exists v2. split; [exact N2|]. rewrite R2. cbn [ats].
        replace (Nat.eqb i j) with false by (symmetry; apply Nat.eqb_neq; auto). reflexivity.
Qed.

(* ------------------------------------------------------------------ *)
(* The data                                                             *)

Lemma bytes_zero mem a : bytes mem a 0 = [].
Proof. reflexivity. Qed.

Lemma zlen_bytes mem a n : 0 <= n -> zlen (bytes mem a n) = n.
Proof. intro H. unfold bytes, zlen. rewrite map_length, seq_length. lia. Qed.

Lemma bytes_app mem a n m : 0 <= n -> 0 <= m ->
  bytes mem a (n + m) = bytes mem a n ++ bytes mem (a + n) m.
Proof.
  intros H K. unfold bytes. rewrite Z2Nat.inj_add by lia. rewrite seq_app, map_app. f_equal.
  cbn [Nat.add]. generalize (Z.to_nat m) as k. intro k.
  enough (G : forall z, map (fun i => mem (a + Z.of_nat i)) (seq (Z.to_nat n + z) k) =
    map (fun i => mem (a + n + Z.of_nat i)) (seq z k)).
  { rewrite <- (G 0%nat). now rewrite Nat.add_0_r. }
  induction k as [|k IH]; intro z; [reflexivity|].
  cbn [seq map]. f_equal; [f_equal; lia|]. rewrite <- IH. do 2 f_equal. lia.
Qed.

(* The data that the reads give. *)
Fixpoint mdat (mem : Z -> Z) (L : list (nat * fr)) (ps : list (Z * Z)) : list Z :=
  match L with
  | [] => []
  | (i, f) :: L =>
      let '(pos, avail) := nth i ps (0, 0) in
      bytes mem pos (f_size f) ++ mdat mem L (set_nth ps i (pos + f_size f, avail - f_size f))
  end.

Definition read_bytes (mem : Z -> Z) (r : nat * Z * Z) : list Z := bytes mem (snd (fst r)) (snd r).

Lemma reads_spec mem L : forall ps,
  nonneg L -> Forall (fun p => (fst p < length ps)%nat) L ->
  (forall i p, nth_error ps i = Some p -> sizes (of i L) <= snd p) ->
  exists rs, reads L ps = (rs, true) /\ concat (map (read_bytes mem) rs) = mdat mem L ps /\
    map (fun r => fst (fst r)) rs = map fst L /\ Forall (fun r => 0 <= snd r) rs.
Proof.
  induction L as [|[i f] L IH]; intros ps NN I S.
  - exists []. repeat split. constructor.
  - apply Forall_cons_iff in I. destruct I as (I1 & I). cbn in I1.
    apply Forall_cons_iff in NN. destruct NN as (N1 & NN). cbn in N1.
    destruct (nth_error ps i) as [[pos avail]|] eqn:N; [|apply nth_error_None in N; lia].
    cbn [reads mdat]. rewrite N. rewrite (nth_error_nth ps i (0, 0) N).
    pose proof (S i _ N) as Si. rewrite of_cons, Nat.eqb_refl in Si.
    change (f_size f + sizes (of i L) <= avail) in Si.
    assert (SN : forall j, 0 <= sizes (of j L)).
    { intro j. clear -NN. induction NN as [|[k g] L H NN IH]; [cbn; lia|].
      rewrite of_cons. destruct (Nat.eqb k j); cbn in H |- *; unfold sizes in *; lia. }
    pose proof (SN i).
    replace (avail <? f_size f) with false by lia.
    destruct (IH (set_nth ps i (pos + f_size f, avail - f_size f))) as (rs & E & M & F & G); auto.
    { now rewrite set_nth_length. }
    { intros j p Nj. destruct (Nat.eq_dec i j) as [<-|D].
      - rewrite nth_error_set_nth_eq in Nj by auto. injection Nj as <-. cbn. lia.
      - rewrite nth_error_set_nth_neq in Nj by auto. specialize (S j p Nj).
        rewrite of_cons in S. replace (Nat.eqb i j) with false in S by (symmetry; now apply Nat.eqb_neq).
        exact S. }
    rewrite E. exists ((i, pos, f_size f) :: rs). split; [reflexivity|].
    split; [cbn; rewrite M; reflexivity|]. split; [cbn; now rewrite F|]. constructor; auto.
Qed.

Definition cnt_of (i : nat) (rs : list (nat * Z * Z)) : nat :=
  length (filter (fun r => Nat.eqb (fst (fst r)) i) rs).

Definition wbytes (mem : Z -> Z) (w : Z * Z) : list Z := bytes mem (fst w) (snd w).

Lemma writes_spec mem rs : forall cnt w,
  Forall (fun r => 0 <= snd r) rs -> 0 <= snd w -> (rs = [] -> snd w = 0) ->
  Forall (fun r => (fst (fst r) < length cnt)%nat) rs ->
  (forall i, (i < length cnt)%nat -> nth i cnt 0%nat = cnt_of i rs) ->
  concat (map (wbytes mem) (writes false rs cnt w)) =
  wbytes mem w ++ concat (map (read_bytes mem) rs).
Proof.
  induction rs as [|[[i a] n] rs IH]; intros cnt [wa wn] F W Z I C.
  - cbn in *. rewrite (Z eq_refl). unfold wbytes. reflexivity.
  - apply Forall_cons_iff in F. destruct F as (F1 & F). cbn in F1, W.
    apply Forall_cons_iff in I. destruct I as (I1 & I). cbn in I1.
    cbn [writes]. clear Z.
    assert (Hi : Nat.pred (nth i cnt 0%nat) = cnt_of i rs).
    { rewrite C by auto. unfold cnt_of. cbn. rewrite Nat.eqb_refl. reflexivity. }
    rewrite Hi.
    assert (Step : forall w', 0 <= snd w' -> (rs = [] -> snd w' = 0) ->
      concat (map (wbytes mem) (writes false rs (set_nth cnt i (cnt_of i rs)) w')) =
      wbytes mem w' ++ concat (map (read_bytes mem) rs)).
    { intros w' W' Z'. apply IH; auto.
      - now rewrite set_nth_length.
      - intros j J. rewrite set_nth_length in J. destruct (Nat.eq_dec i j) as [<-|D].
        + rewrite nth_set_nth_eq; auto.
        + rewrite nth_set_nth_neq by auto. rewrite C by auto. unfold cnt_of. cbn.
          replace (Nat.eqb i j) with false by (symmetry; now apply Nat.eqb_neq). reflexivity. }
    clear IH C.
    set (ow := if negb (wn =? 0)
               then if wa + wn =? a then ([], (wa, wn + n)) else ([(wa, wn)], (a, n))
               else ([], (a, n))).
    assert (O : concat (map (wbytes mem) (fst ow)) ++ wbytes mem (snd ow) =
                wbytes mem (wa, wn) ++ bytes mem a n /\ 0 <= snd (snd ow)).
    { unfold ow. destruct (Z.eqb_spec wn 0) as [->|]; cbn [negb].
      - split; [reflexivity|cbn; lia].
      - destruct (Z.eqb_spec (wa + wn) a) as [<-|].
        + split; [|cbn; lia]. cbn. unfold wbytes. cbn. now apply bytes_app.
        + split; [|cbn; lia]. cbn. now rewrite app_nil_r. }
    change (if false then ([(a, n)], (wa, wn)) else ow) with ow.
    destruct ow as [out w2]. cbn [fst snd] in O. destruct O as (O1 & O2).
    cbn [map concat]. unfold read_bytes at 1. cbn [fst snd]. rewrite app_assoc, <- O1.
    destruct (cnt_of i rs) as [|m] eqn:Em.
    + destruct (Z.eqb_spec (snd w2) 0) as [E0|E0]; cbn [negb].
      * rewrite map_app, concat_app, map_app, concat_app. cbn [map concat app].
        rewrite Step by (auto; lia). now rewrite <- app_assoc.
      * rewrite map_app, concat_app, map_app, concat_app. cbn [map concat app].
        rewrite Step by (cbn; auto; lia). unfold wbytes at 3. cbn [fst snd]. rewrite bytes_zero.
        rewrite app_nil_r. cbn [app]. now rewrite <- app_assoc.
    + assert (rs <> []) by (intros ->; discriminate).
      rewrite map_app, concat_app, map_app, concat_app. cbn [map concat app].
      rewrite Step by (auto; tauto). now rewrite <- app_assoc.
Qed.

(* Each frame is where the offsets say. *)
Definition cut (file : list Z) (b : Z) (p : Z * fr) : list Z := slice (b + fst p) (f_size (snd p)) file.

Lemma slice_app a b c n : zlen a = b -> zlen c = n -> forall l, slice b n (a ++ c ++ l) = c.
Proof.
  intros <- <- l. unfold slice, zlen. rewrite !Nat2Z.id, skipn_app_exact, firstn_app_exact. reflexivity.
Qed.

Lemma mdat_len mem L : forall ps, nonneg L -> zlen (mdat mem L ps) = total L.
Proof.
  induction L as [|[i f] L IH]; intros ps NN; [reflexivity|].
  apply Forall_cons_iff in NN. destruct NN as (N1 & NN). cbn in N1.
  cbn [mdat]. destruct (nth i ps (0, 0)). rewrite zlen_app, zlen_bytes, IH, total_cons by auto. reflexivity.
Qed.

Lemma mdat_cut mem L : forall ps h cur,
  nonneg L -> Forall (fun p => (fst p < length ps)%nat) L -> 0 <= cur -> cur <= zlen h ->
  forall i p, nth_error ps i = Some p -> forall t,
  map (cut (h ++ mdat mem L ps) (zlen h - cur)) (combine (ats i cur L) (of i L)) =
  map (fun x => bytes mem (snd x) (f_size (fst (fst x)))) (placed t (fst p) (of i L)).
Proof.
  induction L as [|[j f] L IH]; intros ps h cur NN I C H i p N t; [reflexivity|].
  apply Forall_cons_iff in I. destruct I as (I1 & I). cbn in I1.
  apply Forall_cons_iff in NN. destruct NN as (N1 & NN). cbn in N1.
  rewrite of_cons. cbn [ats mdat].
  destruct (nth_error ps j) as [[pos avail]|] eqn:Nj; [|apply nth_error_None in Nj; lia].
  rewrite (nth_error_nth ps j (0, 0) Nj). rewrite app_assoc.
  set (h' := h ++ bytes mem pos (f_size f)).
  assert (Zh : zlen h' = zlen h + f_size f) by (unfold h'; rewrite zlen_app, zlen_bytes; auto).
  replace (zlen h - cur) with (zlen h' - (cur + f_size f)) by lia.
  destruct (Nat.eqb_spec j i) as [->|D].
  - replace p with (pos, avail) in * by congruence. cbn [fst app combine map placed].
    rewrite (IH (set_nth ps i (pos + f_size f, avail - f_size f)) h' (cur + f_size f)
      NN) with (p := (pos + f_size f, avail - f_size f)) (t := t + f_dur f); try lia.
    + f_equal. unfold cut. cbn [fst snd]. unfold h'. rewrite <- app_assoc.
      apply slice_app; [fold h'; lia|now apply zlen_bytes].
    + now rewrite set_nth_length.
    + now apply nth_error_set_nth_eq.
  - cbn [app]. apply IH; auto; try lia.
    + now rewrite set_nth_length.
    + now rewrite nth_error_set_nth_neq by auto.
Qed.
