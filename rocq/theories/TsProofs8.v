(* What the packets of a stream carry is what was pushed into it. *)

From Coq Require Import ZArith List Bool Lia ZifyBool.
From Verif Require Import Lists TsModel TsSpec TsProofs TsProofs2 TsProofs3 TsProofs4 TsProofs5 TsProofs6 TsProofs7.
Import ListNotations.
Open Scope Z_scope.

Definition head_ok (c : conf) (marks : list (Z * Z)) (off : Z) (h : hd) (s : Z * frame) : Prop :=
  let '(f, al, _) := h in
  first_pts marks off = Some (f_pts f) /\ f_dts f = f_dts (snd s) /\ off <= fst s < off + 184 /\
  (al = true -> off = fst s) /\ (c_align c = true -> al = true).

Fixpoint doff (l : list rec) : Z := match l with [] => 0 | (_, d) :: l => doff l + zlen d end.

Fixpoint recs_ok (c : conf) (marks : list (Z * Z)) (l : list rec) (ss : list (Z * frame)) : Prop :=
  match l, ss with
  | [], [] => True
  | (h, _) :: l, s :: ss => head_ok c marks (doff l) h s /\ recs_ok c marks l ss
  | _, _ => False
  end.

Definition vok (c : conf) (t : strm) (r : rec) : Prop := snd (fst r) = pes_len c t (zlen (snd r)).

Definition pend (p : phase) : Z := match p with Inside true _ => 1 | _ => 0 end.

Definition size_of (recs : list rec) : Z := match recs with (_, d) :: _ => zlen d | [] => 0 end.

Definition ph_ok (c : conf) (t : strm) (ph : phase) (h : hist) (a : aenc) (recs : list rec) (tail : list Z) : Prop :=
  match ph with
  | New => a_open a = None /\ recs = []
  | Done => a_open a = None /\ recs <> [] /\ (is_other t = false -> a_cc a mod 16 = 0)
  | Between =>
      recs <> [] /\
      forall p, a_open a = Some p ->
        is_start p = false /\ a_ok a = true /\ c_align c = false /\
        a_pts a = first_pts (h_marks h) (zlen (h_data h) - zlen tail) /\
        (is_video t = false -> 8 + size_of recs + zlen tail <= 65535)
  | Inside p n =>
      recs <> [] /\ a_ok a = true /\ (open_start a = true -> a_fl a = 0) /\ 0 <= a_fl a /\ 0 < a_left a /\
      (c_align c = false -> is_other t = false -> 1 <= a_hdr a) /\
      (p = true -> a_open a = None -> a_fl a = 0) /\
      (forall p, a_open a = Some p -> is_start p = false -> 0 < a_fl a ->
         a_pts a = first_pts (h_marks h) (zlen (h_data h) - zlen tail)) /\
      (is_video t = false -> c_align c = false -> n <= 65343 /\ a_wr a <= 183 + n)
  end.

Record J (c : conf) (t : strm) (ph : phase) (h : hist) (a : aenc) (recs : list rec) (tail : list Z) : Prop := {
  j_v : V (a_done a) (a_open a) recs tail;
  j_k : K t (a_done a) (a_open a) (a_cc a);
  j_data : concat (rev (map snd recs)) ++ tail = h_data h;
  j_recs : recs_ok c (h_marks h) recs (rev (h_frames h));
  j_len : Forall (vok c t) (match ph with Inside _ _ => tl recs | _ => recs end);
  j_marks : Forall (fun m => fst m < zlen (h_data h) + pend ph) (h_marks h);
  j_wr0 : 0 <= a_wr a;
  j_wr : is_video t && negb (c_align c) = false ->
         a_wr a = (match ph with Inside _ _ => size_of recs | _ => 0 end) + zlen tail;
  j_ph : ph_ok c t ph h a recs tail
}.

Lemma zlen_app (a b : list Z) : zlen (a ++ b) = zlen a + zlen b.
Proof. unfold zlen. rewrite app_length. lia. Qed.

Lemma doff_len l : zlen (concat (rev (map snd l))) = doff l.
Proof.
  induction l as [|[h d] l IH]; [reflexivity|]. cbn [map snd rev doff].
  rewrite concat_app, zlen_app, IH. cbn [concat]. rewrite app_nil_r. reflexivity.
Qed.

Lemma j_total c t ph h a recs tail : J c t ph h a recs tail -> zlen (h_data h) = doff recs + zlen tail.
Proof. intros HJ. rewrite <- (j_data _ _ _ _ _ _ _ HJ), zlen_app, doff_len. reflexivity. Qed.

Lemma first_stable m x off y : first_pts m off = Some y -> first_pts (m ++ [x]) off = Some y.
Proof.
  unfold first_pts. induction m as [|z m IH]; [discriminate|]. cbn [find app].
  destruct (off <=? fst z); auto.
Qed.

Lemma first_new m off pos y : first_pts m off = None -> off <= pos -> first_pts (m ++ [(pos, y)]) off = Some y.
Proof.
  unfold first_pts. intros H Ho. induction m as [|z m IH].
  - cbn [find app fst]. destruct (off <=? pos) eqn:E; [reflexivity|lia].
  - cbn [find app] in *. destruct (off <=? fst z); [discriminate|auto].
Qed.

Lemma first_none m off : Forall (fun x => fst x < off) m -> first_pts m off = None.
Proof.
  unfold first_pts. induction 1 as [|z m H1 H2 IH]; [reflexivity|]. cbn [find].
  destruct (off <=? fst z) eqn:E; [lia|exact IH].
Qed.

Lemma recs_stable c m x l : forall ss, recs_ok c m l ss -> recs_ok c (m ++ [x]) l ss.
Proof.
  induction l as [|[h d] l IH]; intros [|s ss]; cbn [recs_ok]; auto. intros [H1 H2]. split; [|auto].
  destruct h as [[f al] v]. destruct H1 as (A1 & A2). split; [|exact A2]. apply first_stable. exact A1.
Qed.

Lemma recs_data c m h d d' l ss : recs_ok c m ((h, d) :: l) ss -> recs_ok c m ((h, d') :: l) ss.
Proof. intros H. exact H. Qed.

Lemma recs_v c m f al v v' d d' l ss : recs_ok c m ((f, al, v, d) :: l) ss -> recs_ok c m ((f, al, v', d') :: l) ss.
Proof. intros H. exact H. Qed.

Lemma K_len t done o cc p : K t done o cc -> o = Some p -> (4 + hlen t p + length (k_data p) < 188)%nat.
Proof.
  intros H E. destruct (k_part _ _ _ _ H p E) as [H1 H2]. rewrite len_wire in H2. lia.
Qed.

Lemma cont_hlen t p : is_start p = false -> hlen t p = O.
Proof. unfold is_start, hlen. destruct (k_hd p); [discriminate|reflexivity]. Qed.

Lemma marks_up (m : list (Z * Z)) a b : a <= b -> Forall (fun x => fst x < a) m -> Forall (fun x => fst x < b) m.
Proof. intros H. apply Forall_impl. intros x Hx. cbv beta in *. lia. Qed.

Lemma hsize_le t : (hsize t <= 27)%nat.
Proof. unfold hsize. destruct (is_video t), (t_pcr t); cbn; lia. Qed.

Definition h_start (h : hist) (f : frame) : hist :=
  Hist (h_data h) (h_marks h ++ [(zlen (h_data h), f_pts f)]) (h_frames h ++ [(zlen (h_data h), f)]).
Definition h_sub (h : hist) (f : frame) : hist :=
  Hist (h_data h) (h_marks h ++ [(zlen (h_data h), f_pts f)]) (h_frames h).
Definition h_write (h : hist) (b : list Z) : hist := Hist (h_data h ++ b) (h_marks h) (h_frames h).

Lemma J_start c t ph h a recs tail f :
  J c t ph h a recs tail -> ph = New \/ ph = Between -> (c_align c = false -> is_other t = false -> 1 <= f_header f) ->
  exists recs' tail', J c t (Inside true 0) (h_start h f) (a_start t f a) recs' tail'.
Proof.
  intros HJ Hph Hh. pose proof (j_total _ _ _ _ _ _ _ HJ) as HT.
  assert (HM : Forall (fun m => fst m < zlen (h_data h)) (h_marks h)).
  { pose proof (j_marks _ _ _ _ _ _ _ HJ) as H. destruct Hph as [-> | ->]; cbn [pend] in H; rewrite Z.add_0_r in H; exact H. }
  assert (HM' : Forall (fun m => fst m < zlen (h_data h) + 1) (h_marks h ++ [(zlen (h_data h), f_pts f)])).
  { apply Forall_app. split; [eapply marks_up; [|exact HM]; lia|]. constructor; [cbn [fst]; lia|constructor]. }
  assert (HL : Forall (vok c t) recs).
  { pose proof (j_len _ _ _ _ _ _ _ HJ) as H. destruct Hph as [-> | ->]; exact H. }
  assert (HW : is_video t && negb (c_align c) = false -> a_wr a = zlen tail).
  { intros E. rewrite (j_wr _ _ _ _ _ _ _ HJ E). destruct Hph as [-> | ->]; lia. }
  pose proof (j_wr0 _ _ _ _ _ _ _ HJ) as HW0. pose proof (j_k _ _ _ _ _ _ _ HJ) as HK.
  pose proof (j_v _ _ _ _ _ _ _ HJ) as HV. pose proof (j_recs _ _ _ _ _ _ _ HJ) as HR.
  pose proof (j_data _ _ _ _ _ _ _ HJ) as HD. pose proof (hsize_le t) as Hs.
  apply (recs_stable c _ (zlen (h_data h), f_pts f)) in HR.
  unfold a_start. destruct (a_open a) as [p|] eqn:Ho.
  - (* a packet is open *)
    assert (Hb : ph = Between) by (destruct Hph as [-> | ->]; [destruct (j_ph _ _ _ _ _ _ _ HJ); congruence|reflexivity]).
    pose proof (j_ph _ _ _ _ _ _ _ HJ) as HP. rewrite Hb in HP. destruct HP as [Hr HP].
    destruct (HP p Ho) as (P1 & P2 & P3 & P4 & P5). clear HP.
    pose proof (K_len _ _ _ _ _ HK eq_refl) as HKL. rewrite (cont_hlen t p P1) in HKL.
    assert (Hn : k_hd p = None) by (unfold is_start in P1; destruct (k_hd p); [discriminate|reflexivity]).
    assert (Htl : tail = k_data p /\ groups (a_done a) = Some recs).
    { destruct HV as (G & G1 & G2). unfold view in G2. rewrite Hn in G2. injection G2 as -> <-. auto. }
    destruct Htl as [-> HG].
    set (f' := match a_pts a with Some x => Frame x (f_dts f) (f_size f) (f_header f) | None => f end).
    assert (HH : head_ok c (h_marks h ++ [(zlen (h_data h), f_pts f)]) (doff recs) (f', false, 0) (zlen (h_data h), f)).
    { replace (doff recs) with (zlen (h_data h) - zlen (k_data p)) by lia. cbn [head_ok fst snd].
      split; [|split; [unfold f'; apply frame_hd|split; [unfold zlen; lia|split; [discriminate|congruence]]]].
      unfold f'. destruct (a_pts a) as [x|].
      - cbn [f_pts]. apply first_stable. symmetry. exact P4.
      - apply first_new; [symmetry; exact P4|unfold zlen; lia]. }
    assert (HD' : zlen (k_data p) <= 183) by (unfold zlen; lia).
    destruct (4 + length (k_data p) + hsize t <? 188)%nat eqn:Ef.
    + apply Nat.ltb_lt in Ef. exists ((f', false, 0, k_data p) :: recs), []. constructor.
      * exists recs. cbn [a_done a_open]. split; [exact HG|reflexivity].
      * cbn [a_done a_open a_cc]. apply (K_replace t _ p); [exact HK|reflexivity|reflexivity|].
        rewrite len_wire. cbn [hlen k_hd k_data k_stuff]. lia.
      * cbn [map snd rev h_start h_data]. rewrite concat_app. cbn [concat]. rewrite !app_nil_r. exact HD.
      * cbn [h_start h_marks h_frames]. rewrite rev_app_distr. cbn [rev app recs_ok]. split; assumption.
      * cbn [tl]. exact HL.
      * exact HM'.
      * exact HW0.
      * intros E. cbn [a_wr size_of]. rewrite (HW E). change (zlen []) with 0. lia.
      * cbn [ph_ok a_ok a_fl a_left a_hdr a_open a_wr].
        split; [discriminate|]. split; [reflexivity|]. split; [reflexivity|]. split; [lia|]. split; [unfold zlen; lia|].
        split; [exact Hh|]. split; [discriminate|]. split; [intros; lia|].
        intros Ev Ea. rewrite HW by (rewrite Ev; reflexivity). split; lia.
    + apply Nat.ltb_ge in Ef.
      set (x := firstn (184 - hsize t) (k_data p)). set (r := skipn (184 - hsize t) (k_data p)).
      assert (Hx : length x = (184 - hsize t)%nat) by (unfold x; rewrite firstn_length; lia).
      assert (Hxr : x ++ r = k_data p) by apply firstn_skipn.
      assert (Hrl : zlen r <= 183).
      { unfold zlen. enough (length r <= length (k_data p))%nat by lia. rewrite <- Hxr, app_length. lia. }
      assert (HG' : groups (a_done a ++ [Pkt (k_cc p) (Some (f', false, 0)) 0 x]) = Some ((f', false, 0, x) :: recs)).
      { rewrite groups_app, HG. reflexivity. }
      assert (HK' : K t (a_done a ++ [Pkt (k_cc p) (Some (f', false, 0)) 0 x]) None (a_cc a)).
      { apply (K_close t _ p); [exact HK|reflexivity|]. rewrite len_wire. cbn [hlen k_hd k_data k_stuff]. lia. }
      assert (HZ : zlen x + zlen r = zlen (k_data p)) by (rewrite <- zlen_app, Hxr; reflexivity).
      exists ((f', false, 0, x) :: recs), r.
      assert (HD2 : concat (rev (map snd ((f', false, 0, x) :: recs))) ++ r = h_data h).
      { cbn [map snd rev]. rewrite concat_app. cbn [concat]. rewrite app_nil_r, <- app_assoc, Hxr. exact HD. }
      assert (HR2 : recs_ok c (h_marks (h_start h f)) ((f', false, 0, x) :: recs) (rev (h_frames (h_start h f)))).
      { cbn [h_start h_marks h_frames]. rewrite rev_app_distr. cbn [rev app recs_ok]. split; assumption. }
      fold x. fold r. destruct r as [|r0 r1] eqn:Er.
      * constructor.
        -- exists ((f', false, 0, x) :: recs). cbn [a_done a_open]. split; [exact HG'|reflexivity].
        -- exact HK'.
        -- exact HD2.
        -- exact HR2.
        -- exact HL.
        -- exact HM'.
        -- exact HW0.
        -- intros E. cbn [a_wr size_of]. rewrite (HW E). lia.
        -- cbn [ph_ok a_ok a_fl a_left a_hdr a_open a_wr].
           split; [discriminate|]. split; [reflexivity|]. split; [reflexivity|]. split; [lia|]. split; [lia|].
           split; [exact Hh|]. split; [reflexivity|]. split; [discriminate|].
           intros Ev Ea. rewrite HW by (rewrite Ev; reflexivity). split; lia.
      * rewrite <- Er in *. constructor.
        -- exists ((f', false, 0, x) :: recs). cbn [a_done a_open]. split; [exact HG'|reflexivity].
        -- cbn [a_done a_open a_cc]. apply K_init in HK'. apply (K_replace t _ _ (Pkt (a_cc a) None 0 r) _ HK'); [reflexivity|reflexivity|].
           rewrite len_wire. cbn [hlen k_hd k_data k_stuff]. unfold zlen in Hrl. lia.
        -- exact HD2.
        -- exact HR2.
        -- exact HL.
        -- exact HM'.
        -- exact HW0.
        -- intros E. cbn [a_wr size_of]. rewrite (HW E). lia.
        -- cbn [ph_ok a_ok a_fl a_left a_hdr a_open a_wr].
           split; [discriminate|]. split; [reflexivity|]. split; [reflexivity|]. split; [lia|]. split; [lia|].
           split; [exact Hh|]. split; [discriminate|]. split; [intros; lia|].
           intros Ev Ea. rewrite HW by (rewrite Ev; reflexivity). split; lia.
  - (* a new packet *)
    assert (Htl : tail = [] /\ groups (a_done a) = Some recs).
    { destruct HV as (G & G1 & G2). cbn [view] in G2. injection G2 as -> <-. auto. }
    destruct Htl as [-> HG]. change (zlen []) with 0 in *.
    exists ((f, true, 0, []) :: recs), []. constructor.
    + exists recs. cbn [a_done a_open]. split; [exact HG|reflexivity].
    + cbn [a_done a_open a_cc]. apply K_init in HK.
      apply (K_replace t _ _ (Pkt (a_cc a) (Some (f, true, 0)) 0 []) _ HK); [reflexivity|reflexivity|].
      rewrite len_wire. cbn [hlen k_hd k_data k_stuff length]. lia.
    + cbn [map snd rev h_start h_data]. rewrite concat_app. cbn [concat]. rewrite !app_nil_r in *. exact HD.
    + cbn [h_start h_marks h_frames]. rewrite rev_app_distr. cbn [rev app recs_ok]. split; [|exact HR].
      cbn [head_ok fst snd]. split; [|split; [reflexivity|split; [lia|split; [lia|reflexivity]]]].
      apply first_new; [|lia]. apply first_none. eapply marks_up; [|exact HM]. lia.
    + exact HL.
    + exact HM'.
    + exact HW0.
    + intros E. cbn [a_wr size_of]. rewrite (HW E). reflexivity.
    + cbn [ph_ok a_ok a_fl a_left a_hdr a_open a_wr].
      split; [discriminate|]. split; [reflexivity|]. split; [reflexivity|]. split; [lia|]. split; [lia|].
      split; [exact Hh|]. split; [discriminate|]. split; [intros; lia|].
      intros Ev Ea. rewrite HW by (rewrite Ev; reflexivity). split; lia.
Qed.

Lemma J_sub c t n h a recs tail f :
  J c t (Inside false n) h a recs tail ->
  exists recs' tail', J c t (Inside true n) (h_sub h f) (a_sub f a) recs' tail'.
Proof.
  intros HJ. pose proof (j_total _ _ _ _ _ _ _ HJ) as HT.
  destruct HJ as [HV HK HD HR HL HM HW0 HW HP]. cbn [pend] in HM. rewrite Z.add_0_r in HM.
  destruct HP as (P1 & P2 & P3 & P4 & P5 & P6 & P7 & P8 & P9).
  assert (HM' : Forall (fun m => fst m < zlen (h_data h) + 1) (h_marks h ++ [(zlen (h_data h), f_pts f)])).
  { apply Forall_app. split; [eapply marks_up; [|exact HM]; lia|]. constructor; [cbn [fst]; lia|constructor]. }
  apply (recs_stable c _ (zlen (h_data h), f_pts f)) in HR.
  assert (Hz : 0 <= zlen tail) by (unfold zlen; lia).
  exists recs, tail. unfold a_sub. destruct (a_open a) as [p|] eqn:Ho.
  - assert (HC : forall a', a_done a' = a_done a -> a_open a' = a_open a -> a_cc a' = a_cc a -> a_wr a' = a_wr a ->
       a_ok a' = a_ok a -> a_fl a' = a_fl a -> a_left a' = a_left a -> a_hdr a' = a_hdr a ->
       (is_start p = false -> 0 < a_fl a ->
         a_pts a' = first_pts (h_marks h ++ [(zlen (h_data h), f_pts f)]) (zlen (h_data h) - zlen tail)) ->
       J c t (Inside true n) (h_sub h f) a' recs tail).
    { intros a' E1 E2 E3 E4 E5 E6 E7 E8 E9. rewrite Ho in E2. constructor.
      - rewrite E1, E2. exact HV.
      - rewrite E1, E2, E3. exact HK.
      - exact HD.
      - exact HR.
      - exact HL.
      - exact HM'.
      - rewrite E4. exact HW0.
      - rewrite E4. exact HW.
      - cbn [ph_ok]. rewrite E5, E6, E7, E8, E2, E4. unfold open_start in *. rewrite E2. rewrite Ho in P3.
        split; [exact P1|]. split; [exact P2|]. split; [exact P3|]. split; [exact P4|]. split; [exact P5|].
        split; [exact P6|]. split; [discriminate|]. split; [|exact P9].
        intros q Hq H1 H2. injection Hq as <-. exact (E9 H1 H2). }
    destruct (a_pts a) as [y|] eqn:Ep.
    + apply HC; try reflexivity. intros H1 H2. rewrite Ep. symmetry. apply first_stable. symmetry. exact (P8 p eq_refl H1 H2).
    + apply HC; try reflexivity; [cbn [a_open]; rewrite Ho; reflexivity|]. intros H1 H2. cbn [a_pts]. symmetry. apply first_new; [|lia].
      symmetry. exact (P8 p eq_refl H1 H2).
  - assert (Ht : tail = []) by (destruct HV as (G & G1 & G2); cbn [view] in G2; congruence).
    apply (V_init _ _ _ (a_cc a)) in HV. destruct HV as [HV _]. subst tail. change (zlen []) with 0 in *. constructor.
    + exact HV.
    + cbn [a_done a_open a_cc]. apply K_init. exact HK.
    + exact HD.
    + exact HR.
    + exact HL.
    + exact HM'.
    + exact HW0.
    + exact HW.
    + cbn [ph_ok a_ok a_fl a_left a_hdr a_open a_wr a_pts].
      split; [exact P1|]. split; [exact P2|]. split; [unfold open_start; cbn; discriminate|]. split; [exact P4|]. split; [exact P5|].
      split; [exact P6|]. split; [discriminate|]. split; [|exact P9].
      intros q Hq H1 H2. cbn [h_sub h_marks h_data]. symmetry. change (zlen []) with 0. apply first_new; [|lia].
      apply first_none. eapply marks_up; [|exact HM]. lia.
Qed.
