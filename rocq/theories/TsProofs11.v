(* All streams of a segment together. *)

From Coq Require Import ZArith List Bool Lia ZifyBool.
From Verif Require Import Lists TsModel TsSpec TsProofs TsProofs2 TsProofs3 TsProofs4 TsProofs5 TsProofs6 TsProofs7
  TsProofs8 TsProofs9 TsProofs10.
Import ListNotations.
Open Scope Z_scope.

Definition total (al : list aenc) : Z := Z.of_nat (sum (map (fun a => length (a_done a)) al)).

Definition each (c : conf) (N : nat) (ops : list op) (ps : list phase) (s : st) (z : sst) (al : list aenc)
  (i : nat) (t : strm) : Prop :=
  exists e ph a m recs tail,
    nth_error (s_encs s) i = Some e /\ nth_error ps i = Some ph /\ nth_error al i = Some a /\
    nth_error (z_sims z) i = Some m /\
    R c i t N e (s_q s) a /\ J c t ph (pushed i ops) a recs tail /\ SM c t ph a m.

Record G (c : conf) (N : nat) (ops : list op) (ps : list phase) (s : st) (z : sst) (al : list aenc) : Prop := {
  g_ps : length ps = length (c_strms c);
  g_encs : length (s_encs s) = length (c_strms c);
  g_sims : length (z_sims z) = length (c_strms c);
  g_al : length al = length (c_strms c);
  g_each : forall i t, nth_error (c_strms c) i = Some t -> each c N ops ps s z al i t;
  g_own : forall j, (length (c_strms c) <= j)%nat -> own j (s_q s) = [];
  g_count : q_count (z_q z) = total al;
  g_alone : c_inter c = false -> forall i j ph a, i <> j -> nth_error ps i = Some ph -> is_in ph = true ->
    nth_error al j = Some a -> a_open a = None;
  g_one : c_inter c = false -> forall i j ph ph', i <> j -> nth_error ps i = Some ph -> is_in ph = true ->
    nth_error ps j = Some ph' -> is_in ph' = false;
  g_who : c_inter c = false -> forall i ph a, nth_error ps i = Some ph -> nth_error al i = Some a ->
    (is_in ph = false /\ a_open a <> None) \/ (is_in ph = true /\ 0 < a_fl a) -> q_who (z_q z) = Some i
}.

Lemma R_other c i j t N e q q' a :
  R c j t N e q a -> qpost i N q q' -> i <> j -> (c_inter c = false -> a_open a = None) -> R c j t N e q' a.
Proof.
  intros (ls & pl & HR) (Q1 & Q2 & Q3 & Q4) Hij Ha. exists ls, pl.
  assert (AB : forall m, above m e q a pl -> above m e q' a pl) by (intros m (A1 & A2 & A3); split; [lia|auto]).
  destruct HR. constructor; auto.
  - rewrite Q2 by auto. assumption.
  - destruct (e_send e); auto.
  - lia.
  - intros Hi Ho. specialize (Ha Hi). congruence.
Qed.

Lemma total_set al i a a' : nth_error al i = Some a -> total (set_nth al i a') - total al = ndone a' - ndone a.
Proof.
  intros H. unfold total, ndone. rewrite map_set_nth.
  assert (H' : nth_error (map (fun a => length (a_done a)) al) i = Some (length (a_done a))).
  { rewrite nth_error_map, H. reflexivity. }
  pose proof (sum_set_nth _ _ _ (length (a_done a')) H'). lia.
Qed.

Lemma lt_of {A} (l : list A) i x : nth_error l i = Some x -> (i < length l)%nat.
Proof. intros H. apply nth_error_Some. congruence. Qed.

(* One stream moves. *)
Lemma G_step c N ops ops' ps s z al i t e e' q' ph ph' a a' m m' zq' :
  G c N ops ps s z al ->
  nth_error (c_strms c) i = Some t -> nth_error (s_encs s) i = Some e -> nth_error ps i = Some ph ->
  nth_error al i = Some a -> nth_error (z_sims z) i = Some m ->
  qpost i N (s_q s) q' -> R c i t N e' q' a' ->
  (exists recs tail, J c t ph' (pushed i ops') a' recs tail) -> SM c t ph' a' m' ->
  (forall j, j <> i -> pushed j ops' = pushed j ops) ->
  q_count zq' - q_count (z_q z) = ndone a' - ndone a ->
  (c_inter c = false -> forall j b, j <> i -> nth_error al j = Some b -> a_open b = None) ->
  (c_inter c = false -> forall j x, j <> i -> nth_error ps j = Some x -> is_in x = false) ->
  (c_inter c = false -> (is_in ph' = false /\ a_open a' <> None) \/ (is_in ph' = true /\ 0 < a_fl a') -> q_who zq' = Some i) ->
  G c N ops' (set_nth ps i ph') (St (set_nth (s_encs s) i e') q') (Sst (set_nth (z_sims z) i m') zq') (set_nth al i a').
Proof.
  intros HG Ht He Hp Ha Hm HQ HR HJ HS HO HC HA HI HW. pose proof (lt_of _ _ _ Ht) as Hi.
  destruct HG. constructor; cbn [s_encs s_q z_sims z_q].
  - rewrite set_nth_length. assumption.
  - rewrite set_nth_length. assumption.
  - rewrite set_nth_length. assumption.
  - rewrite set_nth_length. assumption.
  - intros j u Hu. destruct (Nat.eq_dec i j) as [<-|Hij].
    + assert (u = t) by congruence. subst u. destruct HJ as (recs & tail & HJ).
      exists e', ph', a', m', recs, tail. cbn [s_encs s_q z_sims].
      rewrite !nth_error_set_nth_eq by lia. auto 10.
    + destruct (g_each0 j u Hu) as (e1 & ph1 & a1 & m1 & recs & tail & H1 & H2 & H3 & H4 & H5 & H6 & H7).
      exists e1, ph1, a1, m1, recs, tail. cbn [s_encs s_q z_sims]. rewrite !nth_error_set_nth_neq by auto.
      repeat (split; [assumption|]). split; [|split; [rewrite HO by auto; exact H6|exact H7]].
      apply (R_other c i j u N e1 (s_q s)); auto. intros Hc. exact (HA Hc j a1 (fun E => Hij (eq_sym E)) H3).
  - intros j Hj. destruct HQ as (_ & Q2 & _). rewrite Q2 by lia. auto.
  - pose proof (total_set al i a a' Ha). lia.
  - intros Hc j k x b Hjk Hx Hix Hb. destruct (Nat.eq_dec i j) as [<-|Hij].
    + rewrite nth_error_set_nth_neq in Hb by auto. exact (HA Hc k b (fun E => Hjk (eq_sym E)) Hb).
    + rewrite nth_error_set_nth_neq in Hx by auto.
      pose proof (HI Hc j x (fun E => Hij (eq_sym E)) Hx). congruence.
  - intros Hc j k x x' Hjk Hx Hix Hx'. destruct (Nat.eq_dec i j) as [<-|Hij].
    + rewrite nth_error_set_nth_neq in Hx' by auto. exact (HI Hc k x' (fun E => Hjk (eq_sym E)) Hx').
    + rewrite nth_error_set_nth_neq in Hx by auto.
      pose proof (HI Hc j x (fun E => Hij (eq_sym E)) Hx). congruence.
  - intros Hc j x b Hx Hb Hor. destruct (Nat.eq_dec i j) as [<-|Hij].
    + rewrite nth_error_set_nth_eq in Hx by lia. rewrite nth_error_set_nth_eq in Hb by lia.
      injection Hx as <-. injection Hb as <-. exact (HW Hc Hor).
    + rewrite nth_error_set_nth_neq in Hx by auto. rewrite nth_error_set_nth_neq in Hb by auto.
      destruct Hor as [[Hx1 Hx2]|[Hx1 Hx2]].
      * exfalso. apply Hx2. exact (HA Hc j b (fun E => Hij (eq_sym E)) Hb).
      * pose proof (HI Hc j x (fun E => Hij (eq_sym E)) Hx). congruence.
Qed.

(* ---------- what was pushed ---------- *)

Lemma pushed_snoc i ops o : pushed i (ops ++ [o]) = hist_step i (pushed i ops) o.
Proof. unfold pushed. rewrite fold_left_app. reflexivity. Qed.

Lemma pushed_other i ops o : op_strm o <> i -> pushed i (ops ++ [o]) = pushed i ops.
Proof.
  intros H. rewrite pushed_snoc. destruct o; cbn [op_strm hist_step] in *;
    try (destruct (_ =? _)%nat eqn:E; [apply Nat.eqb_eq in E; congruence|reflexivity]). reflexivity.
Qed.

Lemma track_inv c ps o ps' :
  track c ps o = Some ps' ->
  exists t ph ph', nth_error (c_strms c) (op_strm o) = Some t /\ nth_error ps (op_strm o) = Some ph /\
    alone c ps o = true /\ next_phase c t ph o = Some ph' /\ ps' = set_nth ps (op_strm o) ph'.
Proof.
  unfold track. destruct (nth_error (c_strms c) (op_strm o)) as [t|]; [|discriminate].
  destruct (nth_error ps (op_strm o)) as [ph|]; [|discriminate].
  destruct (alone c ps o); [|discriminate]. destruct (next_phase c t ph o) as [ph'|] eqn:E; [|discriminate].
  intros H. injection H as <-. exists t, ph, ph'. auto.
Qed.

Lemma good_nth c i t : good_conf c -> nth_error (c_strms c) i = Some t -> good_strm t.
Proof. intros [_ H] Hi. rewrite Forall_forall in H. apply H. eapply nth_error_In. exact Hi. Qed.

Lemma rep_cur c i t N e q a : R c i t N e q a -> (a_open a = None <-> e_cur e = None).
Proof. intros (ls & pl & HR). rewrite (r_cur _ _ _ _ _ _ _ _ _ HR). destruct (a_open a); cbn; split; congruence. Qed.

Lemma rep_last c i t N e q a : R c i t N e q a -> c_inter c = false -> a_open a <> None -> q_last q = Some i.
Proof. intros (ls & pl & HR) H1 H2. exact (proj1 (r_last _ _ _ _ _ _ _ _ _ HR H1 H2)). Qed.

Lemma set_same_st s i e : nth_error (s_encs s) i = Some e -> St (set_nth (s_encs s) i e) (s_q s) = s.
Proof. intros H. rewrite set_nth_same by exact H. destruct s; reflexivity. Qed.

Lemma set_same_z z i m : nth_error (z_sims z) i = Some m -> Sst (set_nth (z_sims z) i m) (z_q z) = z.
Proof. intros H. rewrite set_nth_same by exact H. destruct z; reflexivity. Qed.

Definition closed_but (i : nat) (al : list aenc) : Prop :=
  forall j b, j <> i -> nth_error al j = Some b -> a_open b = None.

(* The packet of another stream is closed. *)
Lemma G_close c N ops ps s z al i :
  good_conf c -> G c N ops ps s z al -> (c_inter c = false -> existsb is_in ps = false) ->
  exists al', G c N ops ps (close_other c s i) (sim_close_other c z i) al' /\
    (c_inter c = false -> closed_but i al') /\ keeps N (s_q s) (s_q (close_other c s i)).
Proof.
  intros HC HG Hno.
  destruct (c_inter c) eqn:Hc.
  { exists al. unfold close_other, sim_close_other. rewrite Hc. cbn [negb andb].
    replace (match q_last (s_q s) with Some _ => s | None => s end) with s by (destruct (q_last (s_q s)); reflexivity).
    replace (match q_who (z_q z) with Some _ => z | None => z end) with z by (destruct (q_who (z_q z)); reflexivity).
    split; [exact HG|]. split; [discriminate|]. apply keeps_refl. }
  specialize (Hno eq_refl).
  assert (Hin : forall j ph, nth_error ps j = Some ph -> is_in ph = false).
  { intros j ph H. destruct (is_in ph) eqn:E; [|reflexivity]. apply nth_error_In in H.
    assert (existsb is_in ps = true) by (apply existsb_exists; eauto). congruence. }
  assert (Hpd : forall j ph, nth_error ps j = Some ph -> pend ph = 0).
  { intros j ph H. pose proof (Hin j ph H). destruct ph; [reflexivity|discriminate|reflexivity|reflexivity]. }
  (* the last writer of any open packet *)
  assert (Hlast : forall j b, nth_error al j = Some b -> a_open b <> None -> q_last (s_q s) = Some j /\ q_who (z_q z) = Some j).
  { intros j b Hb Ho. pose proof (lt_of _ _ _ Hb) as Hl. rewrite (g_al _ _ _ _ _ _ _ HG) in Hl.
    destruct (nth_error (c_strms c) j) as [t|] eqn:Ht; [|apply nth_error_None in Ht; lia].
    destruct (g_each _ _ _ _ _ _ _ HG j t Ht) as (e & ph & a & m & recs & tail & H1 & H2 & H3 & H4 & H5 & H6 & H7).
    assert (a = b) by congruence. subst a. split; [exact (rep_last _ _ _ _ _ _ _ H5 Hc Ho)|].
    apply (g_who _ _ _ _ _ _ _ HG Hc j ph b H2 Hb). left. split; [exact (Hin j ph H2)|exact Ho]. }
  assert (Hsim : forall k b, nth_error al k = Some b -> a_open b = None ->
      son c z k (fun _ => sim_stuff k) = z).
  { intros k b Hb Ho. pose proof (lt_of _ _ _ Hb) as Hl. rewrite (g_al _ _ _ _ _ _ _ HG) in Hl.
    destruct (nth_error (c_strms c) k) as [t|] eqn:Ht; [|apply nth_error_None in Ht; lia].
    destruct (g_each _ _ _ _ _ _ _ HG k t Ht) as (e & ph & a & m & recs & tail & H1 & H2 & H3 & H4 & H5 & H6 & H7).
    assert (a = b) by congruence. subst a. unfold son. rewrite Ht, H4. rewrite (sim_closed _ _ _ _ _ k (z_q z) H7 Ho).
    cbn [fst snd]. apply set_same_z. exact H4. }
  assert (Hzno : forall k, (forall b, nth_error al k = Some b -> a_open b = None) -> son c z k (fun _ => sim_stuff k) = z).
  { intros k Hk. destruct (nth_error al k) as [b|] eqn:Eb; [exact (Hsim k b Eb (Hk b eq_refl))|].
    unfold son. destruct (nth_error (c_strms c) k) as [t|] eqn:Ht; [|reflexivity].
    apply lt_of in Ht. apply nth_error_None in Eb. rewrite (g_al _ _ _ _ _ _ _ HG) in Eb. lia. }
  destruct (q_last (s_q s)) as [j|] eqn:Hq.
  2:{ (* nothing was written *)
    exists al. unfold close_other, sim_close_other. rewrite Hq, Hc. cbn [negb andb].
    assert (Hcl : forall k b, nth_error al k = Some b -> a_open b = None).
    { intros k b Hb. destruct (a_open b) eqn:E; [|reflexivity]. destruct (Hlast k b Hb ltac:(congruence)). congruence. }
    split; [|split; [intros _ k b _; apply Hcl|apply keeps_refl]].
    destruct (q_who (z_q z)) as [k|]; [|exact HG]. destruct (negb (k =? i)%nat); [|exact HG].
    rewrite Hzno; [exact HG|]. apply Hcl. }
  destruct (Nat.eq_dec j i) as [->|Hji].
  { exists al. unfold close_other, sim_close_other. rewrite Hq, Hc, Nat.eqb_refl. cbn [negb andb].
    assert (Hcl : forall k b, k <> i -> nth_error al k = Some b -> a_open b = None).
    { intros k b Hk Hb. destruct (a_open b) eqn:E; [|reflexivity]. destruct (Hlast k b Hb ltac:(congruence)). congruence. }
    split; [|split; [intros _ k b; apply Hcl|apply keeps_refl]].
    destruct (q_who (z_q z)) as [k|]; [|exact HG]. destruct (k =? i)%nat eqn:Ek; [exact HG|]. cbn [negb].
    apply Nat.eqb_neq in Ek. rewrite Hzno; [exact HG|]. intros b. apply Hcl. exact Ek. }
  assert (Ej : (j =? i)%nat = false) by (apply Nat.eqb_neq; exact Hji).
  destruct (nth_error (c_strms c) j) as [t|] eqn:Ht.
  2:{ (* not one of the streams *)
    exists al. unfold close_other, sim_close_other, on. rewrite Hq, Hc, Ej, Ht. cbn [negb andb].
    assert (Hcl : forall k b, nth_error al k = Some b -> a_open b = None).
    { intros k b Hb. destruct (a_open b) eqn:E; [|reflexivity]. destruct (Hlast k b Hb ltac:(congruence)) as [E1 _].
      injection E1 as <-. apply nth_error_None in Ht. apply lt_of in Hb. rewrite (g_al _ _ _ _ _ _ _ HG) in Hb. lia. }
    split; [|split; [intros _ k b _; apply Hcl|apply keeps_refl]].
    destruct (q_who (z_q z)) as [k|]; [|exact HG]. destruct (negb (k =? i)%nat); [|exact HG].
    rewrite Hzno; [exact HG|]. apply Hcl. }
  destruct (g_each _ _ _ _ _ _ _ HG j t Ht) as (e & ph & a & m & recs & tail & H1 & H2 & H3 & H4 & H5 & H6 & H7).
  pose proof (Hin j ph H2) as Hphi. pose proof (Hpd j ph H2) as Hphp.
  assert (Hpre : stuff_pre t a).
  { split; [intros p Hp; pose proof (proj2 (k_part _ _ _ _ (j_k _ _ _ _ _ _ _ H6) p Hp)); lia|].
    split; [|exact (j_wr0 _ _ _ _ _ _ _ H6)]. intros Hw.
    destruct (is_video t) eqn:Ev; [rewrite andb_false_r in Hw; discriminate|].
    pose proof (j_wr _ _ _ _ _ _ _ H6) as Hwr. rewrite Ev in Hwr. specialize (Hwr eq_refl).
    destruct (a_open a) as [p|] eqn:Ho.
    - pose proof (j_ph _ _ _ _ _ _ _ H6) as HP. destruct ph; cbn [ph_ok] in HP; [destruct HP; congruence|discriminate| |destruct HP; congruence].
      destruct HP as [_ HP]. exact (proj1 (proj2 (HP p Ho))).
    - exfalso. destruct (j_v _ _ _ _ _ _ _ H6) as (GG & G1 & G2). rewrite Ho in G2. cbn [view] in G2. injection G2 as -> <-.
      assert (a_wr a = 0) by (rewrite Hwr; destruct ph; [reflexivity|discriminate|reflexivity|reflexivity]).
      lia. }
  destruct (R_stuff _ _ _ _ _ _ _ H5 Hpre) as (e' & q' & E1 & R1 & Q1 & _).
  destruct (J_stuff _ _ _ _ _ _ _ H6 Hphi) as (recs' & J1).
  assert (Hoth : c_inter c = false -> forall k b, k <> j -> nth_error al k = Some b -> a_open b = None).
  { intros _ k b Hk Hb. destruct (a_open b) eqn:E; [|reflexivity]. destruct (Hlast k b Hb ltac:(congruence)). congruence. }
  assert (Hoth2 : c_inter c = false -> forall k x, k <> j -> nth_error ps k = Some x -> is_in x = false).
  { intros _ k x _ Hx. exact (Hin k x Hx). }
  assert (Hcl' : closed_but i (set_nth al j (a_stuff t a))).
  { intros k b Hk Hb. destruct (Nat.eq_dec j k) as [<-|Hjk].
    - rewrite nth_error_set_nth_eq in Hb by (apply lt_of in H3; exact H3). injection Hb as <-. apply a_stuff_open.
    - rewrite nth_error_set_nth_neq in Hb by auto. apply (Hoth Hc k b); auto. }
  assert (EC : close_other c s i = St (set_nth (s_encs s) j e') q').
  { unfold close_other, on. rewrite Hq, Hc, Ej, Ht, H1, E1. reflexivity. }
  exists (set_nth al j (a_stuff t a)). rewrite EC. cbn [s_q].
  split; [|split; [intros _; exact Hcl'|exact (proj1 Q1)]].
  rewrite <- (set_nth_same ps j ph H2).
  destruct (a_open a) as [p|] eqn:Ho.
  - destruct (Hlast j a H3 ltac:(congruence)) as [_ Hwho].
    destruct (sim_stuff_ok _ _ _ _ _ j (z_q z) H7 Hphp Hphi) as (m' & zq' & E2 & S1 & C1).
    assert (EZ : sim_close_other c z i = Sst (set_nth (z_sims z) j m') zq').
    { unfold sim_close_other, son. rewrite Hwho, Hc, Ej, Ht, H4, E2. reflexivity. }
    rewrite EZ.
    apply (G_step c N ops ops ps s z al j t e e' q' ph ph a (a_stuff t a) m m' zq'); auto; [eauto|].
    intros _ [[_ HX]|[HX _]]; [exfalso; apply HX; apply a_stuff_open|congruence].
  - assert (EZ : sim_close_other c z i = Sst (set_nth (z_sims z) j m) (z_q z)).
    { rewrite set_same_z by exact H4. unfold sim_close_other. destruct (q_who (z_q z)) as [k|]; [|reflexivity].
      rewrite Hc. destruct (k =? i)%nat; [reflexivity|]. cbn [negb andb]. apply Hzno.
      intros b Hb. destruct (Nat.eq_dec k j) as [->|Hk]; [congruence|]. exact (Hoth Hc k b Hk Hb). }
    rewrite EZ. destruct (SM_stuff_closed _ _ _ _ _ H7 Hphi Ho) as [S1 C1].
    apply (G_step c N ops ops ps s z al j t e e' q' ph ph a (a_stuff t a) m m (z_q z)); auto; [eauto|lia|].
    intros _ [[_ HX]|[HX _]]; [exfalso; apply HX; apply a_stuff_open|congruence].
Qed.

(* One call. *)
Lemma G_op c N ops ps s z al o ps' :
  good_conf c -> G c N ops ps s z al -> track c ps o = Some ps' ->
  exists al', G c N (ops ++ [o]) ps' (step c s o) (sim_step c z o) al' /\ keeps N (s_q s) (s_q (step c s o)).
Proof.
  intros HC HG Htr. destruct (track_inv _ _ _ _ Htr) as (t & ph & ph' & Ht & Hph & Hal & Hnp & ->).
  pose proof (good_nth _ _ _ HC Ht) as HGS.
  assert (Hpo : forall j, j <> op_strm o -> pushed j (ops ++ [o]) = pushed j ops) by (intros j Hj; apply pushed_other; auto).
  (* the stream is inside a frame: nothing else is open *)
  assert (Hins : is_in ph = true -> c_inter c = false ->
     (forall j b, j <> op_strm o -> nth_error al j = Some b -> a_open b = None) /\
     (forall j x, j <> op_strm o -> nth_error ps j = Some x -> is_in x = false)).
  { intros Hi Hc. split; intros j b Hj Hb.
    - apply (g_alone _ _ _ _ _ _ _ HG Hc (op_strm o) j ph b); auto.
    - apply (g_one _ _ _ _ _ _ _ HG Hc (op_strm o) j ph b); auto. }
  destruct o as [i f|i f|i b|i last]; cbn [op_strm] in *.
  - (* a frame *)
    cbn [alone] in Hal.
    assert (Hno : c_inter c = false -> existsb is_in ps = false).
    { intros E. rewrite E in Hal. destruct (existsb is_in ps); [discriminate|reflexivity]. }
    destruct (G_close c N ops ps s z al i HC HG Hno) as (al1 & HG1 & Hcl & Hk).
    cbn [step sim_step]. set (s1 := close_other c s i) in *. set (z1 := sim_close_other c z i) in *. clearbody s1 z1.
    destruct (g_each _ _ _ _ _ _ _ HG1 i t Ht) as (e & ph0 & a & m & recs & tail & H1 & H2 & H3 & H4 & H5 & H6 & H7).
    assert (ph0 = ph) by congruence. subst ph0.
    assert (HX : (ph = New \/ ph = Between) /\ (c_align c = false -> is_other t = false -> 1 <= f_header f) /\ ph' = Inside true 0).
    { cbn [next_phase] in Hnp. destruct ph; try discriminate;
        (destruct ((c_align c || is_other t || (1 <=? f_header f)) && (0 <=? f_header f)) eqn:E; [|discriminate]);
        injection Hnp as <-; (split; [auto|]; split; [|reflexivity]); intros Ea Eo; rewrite Ea, Eo in E; lia. }
    destruct HX as (Hp1 & Hh & ->).
    assert (Hop : forall p, a_open a = Some p -> is_start p = false /\ (length (wire t p) < 188)%nat).
    { intros p Ho. split; [|exact (proj2 (k_part _ _ _ _ (j_k _ _ _ _ _ _ _ H6) p Ho))].
      pose proof (j_ph _ _ _ _ _ _ _ H6) as HP. destruct Hp1; subst ph; cbn [ph_ok] in HP.
      - destruct HP. congruence.
      - exact (proj1 (proj2 HP p Ho)). }
    destruct (R_start c i t N e (s_q s1) a f HGS H5 Hop) as (e' & q' & E1 & R1 & Q1).
    destruct (J_start _ _ _ _ _ _ _ f H6 Hp1 Hh) as (recs' & tail' & J1).
    destruct (sim_start_ok _ _ _ _ _ _ _ _ f i (z_q z1) H6 H7 Hp1) as (m' & zq' & E2 & S1 & C1 & F1).
    exists (set_nth al1 i (a_start t f a)). unfold on, son. rewrite Ht, H1, H4, E1, E2. unfold upd. cbn [fst snd s_q].
    split; [|eapply keeps_trans; [exact Hk|exact (proj1 Q1)]].
    apply (G_step c N ops (ops ++ [OStart i f]) ps s1 z1 al1 i t e e' q' ph (Inside true 0) a (a_start t f a) m m' zq'); auto.
    + exists recs', tail'. rewrite pushed_snoc. cbn [hist_step]. rewrite Nat.eqb_refl. exact J1.
    + intros Hc j x Hj Hx. specialize (Hno Hc). destruct (is_in x) eqn:E; [|reflexivity]. apply nth_error_In in Hx.
      assert (existsb is_in ps = true) by (apply existsb_exists; eauto). congruence.
    + intros _ [[HY _]|[_ HY]]; [discriminate|lia].
  - (* a sub frame *)
    destruct (g_each _ _ _ _ _ _ _ HG i t Ht) as (e & ph0 & a & m & recs & tail & H1 & H2 & H3 & H4 & H5 & H6 & H7).
    assert (ph0 = ph) by congruence. subst ph0.
    cbn [next_phase] in Hnp. destruct ph as [|[|] n| |]; try discriminate. injection Hnp as <-.
    destruct (j_ph _ _ _ _ _ _ _ H6) as (_ & Hok & _).
    destruct (R_sub c i t N e (s_q s) a f HGS H5 Hok) as (e' & q' & E1 & R1 & Q1).
    destruct (J_sub _ _ _ _ _ _ _ f H6) as (recs' & tail' & J1).
    destruct (sim_sub_ok _ _ _ _ _ f H7) as (S1 & C1 & F1).
    exists (set_nth al i (a_sub f a)). cbn [step sim_step]. unfold on. rewrite Ht, H1, E1. unfold upd. cbn [fst snd s_q].
    split; [|exact (proj1 Q1)]. rewrite <- (set_same_z z i m H4).
    apply (G_step c N ops (ops ++ [OSub i f]) ps s z al i t e e' q' (Inside false n) (Inside true n) a (a_sub f a) m m (z_q z)); auto.
    + exists recs', tail'. rewrite pushed_snoc. cbn [hist_step]. rewrite Nat.eqb_refl. exact J1.
    + lia.
    + intros Hc. exact (proj1 (Hins eq_refl Hc)).
    + intros Hc. exact (proj2 (Hins eq_refl Hc)).
    + intros Hc [[HY _]|[_ HY]]; [discriminate|]. apply (g_who _ _ _ _ _ _ _ HG Hc i (Inside false n) a Hph H3).
      right. split; [reflexivity|]. rewrite <- F1. exact HY.
  - (* data *)
    destruct (g_each _ _ _ _ _ _ _ HG i t Ht) as (e & ph0 & a & m & recs & tail & H1 & H2 & H3 & H4 & H5 & H6 & H7).
    assert (ph0 = ph) by congruence. subst ph0.
    cbn [next_phase] in Hnp. destruct ph as [|p n| |]; try discriminate.
    destruct ((0 <? zlen b) && (c_align c || is_video t || (n + zlen b <=? 65343))) eqn:E; [|discriminate]. injection Hnp as <-.
    apply andb_true_iff in E as [Eb En].
    assert (Hb : 0 < zlen b) by lia.
    assert (Hn : is_video t = false -> c_align c = false -> n + zlen b <= 65343).
    { intros E1 E2. rewrite E1, E2 in En. cbn [orb] in En. lia. }
    destruct (j_ph _ _ _ _ _ _ _ H6) as (_ & Hok & _).
    assert (Hop : forall p, a_open a = Some p -> (length (wire t p) < 188)%nat).
    { intros p0 Ho. exact (proj2 (k_part _ _ _ _ (j_k _ _ _ _ _ _ _ H6) p0 Ho)). }
    destruct (R_write c i t N e (s_q s) a b HGS H5 Hok Hop) as (e' & q' & E1 & R1 & Q1).
    destruct (J_write _ _ _ _ _ _ _ _ b H6 Hb Hn) as (recs' & tail' & J1).
    destruct (sim_write_ok _ _ _ _ _ _ _ _ _ b i (z_q z) H6 H7 Hb) as (m' & zq' & E2 & S1 & C1 & F1).
    exists (set_nth al i (a_write t b a)). cbn [step sim_step]. unfold on, son. rewrite Ht, H1, H4, E1, E2. unfold upd. cbn [fst snd s_q].
    split; [|exact (proj1 Q1)].
    apply (G_step c N ops (ops ++ [OWrite i b]) ps s z al i t e e' q' (Inside p n) (Inside false (n + zlen b)) a (a_write t b a) m m' zq'); auto.
    + exists recs', tail'. rewrite pushed_snoc. cbn [hist_step]. rewrite Nat.eqb_refl. exact J1.
    + intros Hc. exact (proj1 (Hins eq_refl Hc)).
    + intros Hc. exact (proj2 (Hins eq_refl Hc)).
    + intros Hc [[HY _]|[_ HY]]; [discriminate|]. destruct F1 as [[-> F1]|F1]; [|exact F1].
      apply (g_who _ _ _ _ _ _ _ HG Hc i (Inside p n) a Hph H3). right. split; [reflexivity|]. rewrite <- F1. exact HY.
  - (* the end of a frame *)
    destruct (g_each _ _ _ _ _ _ _ HG i t Ht) as (e & ph0 & a & m & recs & tail & H1 & H2 & H3 & H4 & H5 & H6 & H7).
    assert (ph0 = ph) by congruence. subst ph0.
    cbn [next_phase] in Hnp. destruct ph as [|[|] n| |]; try discriminate.
    destruct (last || c_align c || negb (is_other t)) eqn:Elo; [|discriminate]. injection Hnp as <-.
    assert (Hlo : last = false -> c_align c = false -> is_other t = false).
    { intros -> Ea. rewrite Ea in Elo. destruct (is_other t); [discriminate|reflexivity]. }
    destruct (j_ph _ _ _ _ _ _ _ H6) as (_ & Hok & _ & _ & _ & Hhd & _).
    pose proof (flush_pre_ok _ _ _ _ _ _ _ last H6 Hlo) as Hpre.
    destruct (R_flush c i t N e (s_q s) a last HGS H5 Hpre) as (e' & q' & E1 & R1 & Q1).
    destruct (J_flush _ _ _ _ _ _ _ last H6 Hlo) as (recs' & tail' & J1).
    destruct (sim_flush_ok _ _ _ _ _ last i (z_q z) H7) as (m' & zq' & E2 & S1 & C1 & F1).
    exists (set_nth al i (a_flush c t last a)). cbn [step sim_step]. unfold on, son. rewrite Ht, H1, H4, E1, E2. unfold upd. cbn [fst snd s_q].
    split; [|exact (proj1 Q1)].
    apply (G_step c N ops (ops ++ [OFlush i last]) ps s z al i t e e' q' (Inside false n) (if last then Done else Between) a (a_flush c t last a) m m' zq'); auto.
    + exists recs', tail'. rewrite pushed_snoc. exact J1.
    + intros Hc. exact (proj1 (Hins eq_refl Hc)).
    + intros Hc. exact (proj2 (Hins eq_refl Hc)).
    + intros Hc [[_ HY]|[HY _]]; [|destruct last; discriminate]. destruct (F1 HY) as (-> & Ea & Ef).
      apply (g_who _ _ _ _ _ _ _ HG Hc i (Inside false n) a Hph H3). right. split; [reflexivity|]. assert (El : last = false).
      { destruct last; [|reflexivity]. destruct (j_ph _ _ _ _ _ _ _ J1) as [HO _]. congruence. }
      specialize (Hhd Ea (Hlo El Ea)). lia.
Qed.

Lemma G_run c N ops2 : good_conf c -> forall ops ps s z al ps',
  G c N ops ps s z al -> tracks c ps ops2 = Some ps' ->
  exists al', G c N (ops ++ ops2) ps' (run c s ops2) (sim_run c z ops2) al' /\ keeps N (s_q s) (s_q (run c s ops2)).
Proof.
  intros HC. induction ops2 as [|o ops2 IH]; intros ops ps s z al ps' HG Ht; cbn [tracks] in Ht.
  - injection Ht as <-. exists al. rewrite app_nil_r. split; [exact HG|apply keeps_refl].
  - destruct (track c ps o) as [ps1|] eqn:E; [|discriminate].
    destruct (G_op _ _ _ _ _ _ _ _ _ HC HG E) as (al1 & HG1 & Hk1).
    destruct (IH _ _ _ _ _ _ HG1 Ht) as (al2 & HG2 & Hk2).
    exists al2. rewrite <- app_assoc in HG2. split; [exact HG2|]. eapply keeps_trans; [exact Hk1|exact Hk2].
Qed.

Lemma G_init c : G c 0 [] (map (fun _ => New) (c_strms c)) (init c) (sim_init c) (map aenc0 (c_strms c)).
Proof.
  constructor; unfold init, sim_init; cbn [s_encs s_q z_sims z_q]; rewrite ?map_length; try reflexivity.
  - intros i t Ht. exists (enc0 t), New, (aenc0 t), (sim0 t), [], []. unfold init, sim_init. cbn [s_encs s_q z_sims].
    rewrite !nth_error_map, Ht. cbn [option_map]. repeat (split; [reflexivity|]). split; [|split].
    + exists [], Temp. constructor; cbn; try reflexivity; try congruence; try (intros; discriminate); try lia.
      * split; [lia|]. split; [congruence|discriminate].
      * split; [lia|]. split; [congruence|discriminate].
    + constructor.
      * exists []. split; reflexivity.
      * constructor; [constructor|discriminate|exact I|]. cbn. lia.
      * reflexivity.
      * exact I.
      * constructor.
      * constructor.
      * cbn. lia.
      * reflexivity.
      * split; reflexivity.
    + constructor; cbn; try reflexivity; try lia; congruence.
  - cbn. unfold total. induction (c_strms c) as [|t l IH]; [reflexivity|]. cbn [map sum fold_right]. exact IH.
  - intros _ i j ph a _ Hp Hi. rewrite nth_error_map in Hp. destruct (nth_error (c_strms c) i); [|discriminate].
    injection Hp as <-. discriminate.
  - intros _ i j ph ph' _ Hp Hi. rewrite nth_error_map in Hp. destruct (nth_error (c_strms c) i); [|discriminate].
    injection Hp as <-. discriminate.
  - intros _ i ph a Hp Ha. rewrite nth_error_map in *. destruct (nth_error (c_strms c) i); [|discriminate].
    injection Hp as <-. injection Ha as <-. cbn. intros [[_ H]|[H _]]; [congruence|discriminate].
Qed.
