(* The same for start, write, sub frame and flush. *)

From Coq Require Import ZArith List Bool Lia ZifyBool.
From Verif Require Import Lists TsModel TsSpec TsProofs TsProofs2 TsProofs3 TsProofs4.
Import ListNotations.
Open Scope Z_scope.

Lemma Rep_set_fl c i t N e q a ls pl x l :
  Rep c i t N e q a ls pl ->
  Rep c i t N (set_fl e x l) q
    (A (a_done a) (a_open a) (a_cc a) (a_wr a) x l (a_hdr a) (a_pts a) (a_ok a)) ls pl.
Proof.
  intros [D O C F1 F2 F3 F4 F5 F6 OS PT AB SE LQ LO LA].
  constructor; simp; try assumption; reflexivity.
Qed.

Lemma Rep_set_pts c i t N e q a ls pl x :
  Rep c i t N e q a ls pl ->
  Rep c i t N (set_pts e x) q
    (A (a_done a) (a_open a) (a_cc a) (a_wr a) (a_fl a) (a_left a) (a_hdr a) x (a_ok a)) ls pl.
Proof.
  intros [D O C F1 F2 F3 F4 F5 F6 OS PT AB SE LQ LO LA].
  constructor; simp; try assumption; reflexivity.
Qed.

(* What start_frame does first. *)
Lemma Rep_begin c i t N e q a ls pl h :
  Rep c i t N e q a ls pl ->
  Rep c i t N (set_send (set_hdr (set_fl e 0 (e_left e)) h) (Some (e_lastq e))) q
    (A (a_done a) (a_open a) (a_cc a) (a_wr a) 0 (a_left a) h (a_pts a) false) ls pl.
Proof.
  intros [D O C F1 F2 F3 F4 F5 F6 OS PT AB SE LQ LO LA].
  constructor; simp; try assumption; try reflexivity; try discriminate.
  - unfold above in *. simp. destruct AB as (X1 & X2 & X3). split; [exact X1|]. split; [exact X2|discriminate].
  - unfold above. simp. split; [exact LQ|]. split; [|discriminate].
    intros H n Hn. rewrite (LO H n Hn). lia.
Qed.

Lemma Rep_reopen c i t N e q a ls pl p p' fl left :
  Rep c i t N e q a ls pl -> a_open a = Some p -> e_send e <> None ->
  is_start p' = true -> k_stuff p' = O -> vin p' ->
  Rep c i t N (set_fl (set_ptr (set_cur e (Some (pl, wire t p'))) (pl, size_off t)) fl left) q
    (A (a_done a) (Some p') (a_cc a) (a_wr a) fl left (a_hdr a) (a_pts a) true) ls pl.
Proof.
  intros [D O C F1 F2 F3 F4 F5 F6 OS PT AB SE LQ LO LA] Ho Hs H1 H2 H3.
  assert (AB0 : forall m, above m e q a pl ->
    above m (set_fl (set_ptr (set_cur e (Some (pl, wire t p'))) (pl, size_off t)) fl left) q
      (A (a_done a) (Some p') (a_cc a) (a_wr a) fl left (a_hdr a) (a_pts a) true) pl).
  { intros m (X1 & X2 & X3). unfold above. simp. split; [exact X1|].
    split; [intros _; apply X2; congruence|]. intros _ n o Hn. injection Hn as Hn _.
    apply X2; [congruence|exact Hn]. }
  constructor; simp; try assumption; try reflexivity.
  - unfold open_slot in *. simp. rewrite Ho in O. exact O.
  - intros x Hx. injection Hx as <-. exact H2.
  - intros _. unfold ptr_at. simp. rewrite H1. split; [reflexivity|exact H3].
  - apply AB0. exact AB.
  - destruct (e_send e) as [m|]; [|congruence]. apply AB0. exact SE.
  - intros _. apply LO. congruence.
  - intros X _. apply LA; [exact X|congruence].
Qed.

Lemma Rep_more c i t N e q a ls pl p x :
  Rep c i t N e q a ls pl -> a_open a = Some p ->
  Rep c i t N (set_cur e (Some (pl, wire t p ++ x))) q
    (a_put a (a_done a) (Some (a_more p x)) (a_wr a) (a_ok a)) ls pl.
Proof.
  intros [D O C F1 F2 F3 F4 F5 F6 OS PT AB SE LQ LO LA] Ho.
  assert (Hst : k_stuff p = 0%nat) by (apply OS; exact Ho).
  assert (EW : wire t p ++ x = wire t (a_more p x)) by (destruct p; apply wire_app).
  assert (ES : is_start (a_more p x) = is_start p) by (destruct p; reflexivity).
  assert (AB0 : forall m, above m e q a pl ->
    above m (set_cur e (Some (pl, wire t p ++ x))) q (a_put a (a_done a) (Some (a_more p x)) (a_wr a) (a_ok a)) pl).
  { intros m (X1 & X2 & X3). unfold above. simp. split; [exact X1|].
    split; [intros _; apply X2; congruence|exact X3]. }
  constructor; simp; try assumption; try reflexivity.
  - unfold open_slot in *. simp. rewrite Ho in O. exact O.
  - rewrite EW. reflexivity.
  - intros y Hy. injection Hy as <-. exact Hst.
  - intros Hk. specialize (PT Hk). unfold ptr_at in *. simp. rewrite Ho in PT. rewrite ES.
    destruct (is_start p); [|exact PT]. destruct p; exact PT.
  - apply AB0. exact AB.
  - destruct (e_send e) as [m|]; [apply AB0; exact SE|]. destruct SE as [SE _]. congruence.
  - intros _. apply LO. congruence.
  - intros X _. apply LA; [exact X|congruence].
Qed.

(* The open packet is closed with the head of the new PES packet in it. *)
Lemma Rep_close_start c i t N e q a ls pl p p' :
  Rep c i t N e q a ls pl -> a_open a = Some p -> e_send e <> None ->
  is_start p' = true -> k_stuff p' = O -> vin p' ->
  Rep c i t N
    (set_cur (set_ptr (set_lastq e (close_n pl q)) (Slot (close_n pl q), size_off t)) None)
    (close_q i pl (wire t p') q)
    (A (a_done a ++ [p']) None (a_cc a) (a_wr a) (a_fl a) (a_left a) (a_hdr a) (a_pts a) true)
    (ls ++ [(close_n pl q, p')]) Temp.
Proof.
  intros HR Ho Hs H1 H2 H3.
  pose proof (close_own _ _ _ _ _ _ _ _ _ _ (wire t p') HR Ho) as HO.
  pose proof (close_n_lt _ _ _ _ _ _ _ _ _ _ (wire t p') HR Ho) as HLt.
  destruct (close_post _ _ _ _ _ _ _ _ _ _ (wire t p') HR Ho) as (_ & _ & _ & HQ4).
  destruct HR as [D O C F1 F2 F3 F4 F5 F6 OS PT AB SE LQ LO LA].
  assert (AB0 : forall m, above m e q a pl ->
    above m (set_cur (set_ptr (set_lastq e (close_n pl q)) (Slot (close_n pl q), size_off t)) None)
      (close_q i pl (wire t p') q)
      (A (a_done a ++ [p']) None (a_cc a) (a_wr a) (a_fl a) (a_left a) (a_hdr a) (a_pts a) true) Temp).
  { intros m (X1 & X2 & X3). unfold above. simp. split; [lia|].
    split; [discriminate|]. intros _ n o Hn. injection Hn as <- _.
    destruct pl as [|n]; [exact X1|]. apply X2; [congruence|reflexivity]. }
  constructor; simp; try assumption; try reflexivity; try discriminate.
  - rewrite map_app, D. reflexivity.
  - rewrite HO, enc_slot_app. unfold open_slot. simp. rewrite app_nil_r. reflexivity.
  - intros _. unfold ptr_at. simp. exists ls, (close_n pl q), p', [].
    repeat (split; [reflexivity || assumption|]). assumption.
  - apply AB0. exact AB.
  - destruct (e_send e) as [m|]; [|congruence]. apply AB0. exact SE.
  - lia.
  - intros _ H. congruence.
Qed.

Lemma lastq_id c i t N e q a ls n :
  Rep c i t N e q a ls (Slot n) -> a_open a <> None -> set_lastq e n = e.
Proof.
  intros HR Ho. rewrite <- (r_lasto _ _ _ _ _ _ _ _ _ HR Ho n eq_refl). destruct e; reflexivity.
Qed.

Lemma init_cur c i t d e q x : init_packet c i t d (set_cur e x) q = init_packet c i t d e q.
Proof. unfold init_packet. destruct (d || negb (c_inter c)); reflexivity. Qed.

Lemma frame_hd (f : frame) o : f_dts (match o with Some x => Frame x (f_dts f) (f_size f) (f_header f) | None => f end) = f_dts f.
Proof. destruct o; reflexivity. Qed.

Lemma R_start c i t N e q a f :
  good_strm t -> R c i t N e q a ->
  (forall p, a_open a = Some p -> is_start p = false /\ (length (wire t p) < 188)%nat) ->
  exists e' q', start_frame c i t f e q = (e', q') /\ R c i t N e' q' (a_start t f a) /\ qpost i N q q'.
Proof.
  intros HG (ls & pl & HR0) Hp. pose proof (Rep_begin _ _ _ _ _ _ _ _ _ (f_header f) HR0) as HR.
  unfold start_frame. cbv zeta.
  set (e1 := set_send (set_hdr (set_fl e 0 (e_left e)) (f_header f)) (Some (e_lastq e))) in *.
  assert (Hs1 : e_send e1 <> None) by discriminate.
  assert (Hf1 : e_fl e1 = 0) by reflexivity.
  assert (Hpt : e_pts e1 = a_pts a) by (rewrite (r_pts _ _ _ _ _ _ _ _ _ HR); reflexivity).
  clearbody e1. clear HR0 e. rename e1 into e.
  set (a1 := A (a_done a) (a_open a) (a_cc a) (a_wr a) 0 (a_left a) (f_header f) (a_pts a) false) in *.
  pose proof (r_cur _ _ _ _ _ _ _ _ _ HR) as HC. change (a_open a1) with (a_open a) in HC.
  unfold a_start. destruct (a_open a) as [p|] eqn:Ho; cbn [option_map] in HC; rewrite HC.
  - assert (Ho1 : a_open a1 = Some p) by reflexivity.
    destruct (Hp p eq_refl) as [Hst HL]. clear Hp.
    assert (Hs0 : k_stuff p = O) by (apply (r_os _ _ _ _ _ _ _ _ _ HR p); exact Ho1).
    destruct p as [pcc ph ps pd]. unfold is_start in Hst. cbn [k_hd k_stuff] in Hst, Hs0. subst ps.
    destruct ph as [ph|]; [discriminate|]. clear Hst.
    rewrite Hpt.
    set (f' := match a_pts a with Some x => _ | None => f end).
    assert (HLw : length (wire t (Pkt pcc None 0 pd)) = (4 + length pd)%nat)
      by (rewrite len_wire; cbn [k_data k_stuff hlen k_hd]; lia).
    rewrite HLw in *. rewrite wire_skip4. cbn [k_data k_cc].
    destruct (4 + length pd + hsize t <? 188)%nat eqn:EF.
    + rewrite <- app_assoc, (wire_insert t pcc pd f' false HG).
      eexists _, _. split; [reflexivity|]. split; [|apply qpost_refl].
      rewrite Hf1.
      assert (EL : 188 - zlen (wire t (Pkt pcc (Some (f', false, 0)) 0 pd)) = 184 - Z.of_nat (hsize t) - zlen pd).
      { unfold zlen. rewrite len_wire. cbn [k_data k_stuff hlen k_hd]. lia. }
      rewrite EL.
      exists ls, pl. apply (Rep_reopen _ _ _ _ _ _ a1 _ _ (Pkt pcc None 0 pd) (Pkt pcc (Some (f', false, 0)) 0 pd));
        try assumption; try reflexivity. cbn. lia.
    + (* the packet is full *)
      set (h := hsize t) in *.
      assert (Hh : (h <= 27)%nat) by (unfold h, hsize; destruct (t_pcr t), (is_video t); lia).
      set (p' := Pkt pcc (Some (f', false, 0)) 0 (firstn (184 - h) pd)).
      assert (EW : (firstn 4 (set_start t (wire t (Pkt pcc None 0 pd))) ++ pes_header t f' false) ++
                   firstn (184 - h) pd = wire t p').
      { unfold p'. rewrite <- (wire_insert t pcc _ f' false HG), !wire_set_start by exact HG.
        rewrite <- app_assoc. reflexivity. }
      rewrite EW.
      assert (E2 : (match pl with
           | Temp => (set_lastq e (length (q_slots q)), get_buffer i q (Some (wire t p')), length (q_slots q))
           | Slot n => (e, fill n (wire t p') q, n)
           end) = (set_lastq e (close_n pl q), close_q i pl (wire t p') q, close_n pl q)).
      { destruct pl as [|n]; [reflexivity|]. cbn [close_n close_q].
        rewrite (lastq_id _ _ _ _ _ _ _ _ _ HR) by congruence. reflexivity. }
      rewrite E2. clear E2.
      assert (HR1 := Rep_close_start _ _ _ _ _ _ _ _ _ (Pkt pcc None 0 pd) p' HR Ho1 Hs1 eq_refl eq_refl
                       (conj (Z.le_refl 0) eq_refl : vin p')).
      pose proof (close_post _ _ _ _ _ _ _ _ _ _ (wire t p') HR Ho1) as HQ.
      set (e2 := set_ptr (set_lastq e (close_n pl q)) (Slot (close_n pl q), size_off t)) in *.
      set (q2 := close_q i pl (wire t p') q) in *.
      assert (Hs2 : e_send (set_cur e2 None) <> None) by exact Hs1.
      assert (Hf2 : e_fl e2 = 0) by exact Hf1.
      clearbody e2 q2.
      cbn [a1 a_done a_cc a_wr a_fl a_left a_hdr a_pts] in HR1.
      destruct (0 <? 4 + length pd + h - 188)%nat eqn:EX.
      * assert (Hrest : skipn (184 - h) pd <> []).
        { intros H. apply (f_equal (@length Z)) in H. rewrite skipn_length in H. cbn [length] in H. lia. }
        destruct (skipn (184 - h) pd) as [|r0 rest] eqn:ER; [congruence|]. rewrite <- ER in *.
        rewrite <- init_cur with (x := None) (e := e2).
        match goal with |- context [init_packet c i t ?d _ _] => 
          destruct (Rep_init _ _ _ _ _ _ _ _ _ d HG HR1 eq_refl Hs2) as (e3 & q3 & -> & (pl3 & HR3 & _ & Hs3) & HQ3)
        end.
        pose proof (r_cur _ _ _ _ _ _ _ _ _ HR3) as HC3. cbn [a_init a_open option_map a_cc] in HC3. rewrite HC3.
        assert (Erest : skipn (4 + length pd - (4 + length pd + h - 188)) (wire t (Pkt pcc None 0 pd)) = skipn (184 - h) pd).
        { replace (4 + length pd - (4 + length pd + h - 188))%nat with (4 + (184 - h))%nat by lia. reflexivity. }
        rewrite Erest.
        apply (Rep_more _ _ _ _ _ _ _ _ _ _ (skipn (184 - h) pd)) with (2 := eq_refl) in HR3 as HR4.
        cbn [a_init a_put a_more a_done a_cc a_wr a_fl a_left a_hdr a_pts a_ok k_cc k_hd k_stuff k_data] in HR4.
        eexists _, _. split; [reflexivity|].
        split; [|eapply qpost_trans; eassumption].
        assert (Hf3 : e_fl e3 = 0) by (rewrite (r_fl _ _ _ _ _ _ _ _ _ HR3); reflexivity).
        rewrite Hf3.
        apply (Rep_set_fl _ _ _ _ _ _ _ _ _ 0 (184 - zlen (skipn (184 - h) pd))) in HR4.
        cbn [a_done a_open a_cc a_wr a_hdr a_pts a_ok] in HR4.
        assert (EL : 188 - zlen (wire t (Pkt (a_cc a) None 0 []) ++ skipn (184 - h) pd) = 184 - zlen (skipn (184 - h) pd)).
        { unfold zlen. rewrite app_length, len_wire. cbn [k_data k_stuff hlen k_hd length]. lia. }
        rewrite EL. exists (ls ++ [(close_n pl q, p')]), pl3. exact HR4.
      * assert (Hrest : skipn (184 - h) pd = []) by (apply skipn_all2; lia).
        rewrite Hrest. rewrite Hf2. eexists _, _. split; [reflexivity|]. split; [|exact HQ].
        exists (ls ++ [(close_n pl q, p')]), Temp.
        apply (Rep_set_fl _ _ _ _ _ _ _ _ _ 0 184) in HR1. exact HR1.
  - destruct (Rep_init _ _ _ _ _ _ _ _ _ (184 <=? Z.of_nat (hsize t) + f_size f) HG HR eq_refl Hs1)
      as (e3 & q3 & -> & (pl3 & HR3 & _ & Hs3) & HQ3).
    pose proof (r_cur _ _ _ _ _ _ _ _ _ HR3) as HC3. cbn [a_init a_open option_map a1 a_cc] in HC3. rewrite HC3.
    rewrite <- wire_header by exact HG. rewrite wire_start by exact HG.
    eexists _, _. split; [reflexivity|]. split; [|exact HQ3].
    assert (Hf3 : e_fl e3 = 0) by (rewrite (r_fl _ _ _ _ _ _ _ _ _ HR3); reflexivity).
    rewrite Hf3.
    assert (EL : 188 - zlen (wire t (Pkt (a_cc a) (Some (f, true, 0)) 0 [])) = 184 - Z.of_nat (hsize t)).
    { unfold zlen. rewrite len_wire. cbn [k_data k_stuff hlen k_hd length]. lia. }
    rewrite EL. exists ls, pl3.
    apply (Rep_reopen _ _ _ _ _ _ (a_init a1) _ _ (Pkt (a_cc a) None 0 []) (Pkt (a_cc a) (Some (f, true, 0)) 0 []));
      try assumption; try reflexivity; [congruence|cbn; lia].
Qed.
