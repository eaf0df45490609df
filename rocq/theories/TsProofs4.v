(* The same for the functions of the encoder. *)

From Coq Require Import ZArith List Bool Lia ZifyBool.
From Verif Require Import Lists TsModel TsSpec TsProofs TsProofs2 TsProofs3.
Import ListNotations.
Open Scope Z_scope.

Ltac simp :=
  cbn [a_put a_done a_open a_cc a_wr a_fl a_left a_hdr a_pts a_ok
       set_cur set_ptr set_wr set_fl set_pts set_send set_hdr set_lastq set_cc
       e_cur e_cc e_wr e_fl e_left e_hdr e_pts e_lastq e_ptr e_send
       option_map fst snd] in *.

Lemma Rep_set_wr c i t N e q a ls pl x :
  Rep c i t N e q a ls pl -> Rep c i t N (set_wr e x) q (a_put a (a_done a) (a_open a) x (a_ok a)) ls pl.
Proof.
  intros [D O C F1 F2 F3 F4 F5 F6 OS PT AB SE LQ LO LA].
  constructor; simp; try assumption. reflexivity.
Qed.

Lemma stuffed_bytes t p :
  k_stuff p = O -> (length (wire t p) <= 188)%nat ->
  (if (0 <? 188 - length (wire t p))%nat then add_stuffing (wire t p) (188 - length (wire t p)) else wire t p) =
  wire t (Pkt (k_cc p) (k_hd p) (188 - length (wire t p)) (k_data p)).
Proof.
  intros Hs HL. destruct p as [cc h s d]. cbn [k_stuff] in Hs. subst s. cbn [k_cc k_hd k_data].
  destruct (0 <? 188 - length (wire t (Pkt cc h 0 d)))%nat eqn:E.
  - apply stuff_wire; lia.
  - replace (188 - length (wire t (Pkt cc h 0 d)))%nat with O by lia. reflexivity.
Qed.

(* The last part of stuff_cur. *)
Definition stuff_close (i : nat) (e : enc) (q : queue) : enc * queue :=
  match e_cur e with
  | None => (set_send e None, q)
  | Some (p, b) =>
      let n := (188 - length b)%nat in
      let b' := if (0 <? n)%nat then add_stuffing b n else b in
      match p with
      | Temp =>
          (set_send (set_cur (set_lastq e (length (q_slots q))) None) None,
           get_buffer i q (Some b'))
      | Slot m => (set_send (set_cur e None) None, fill m b' q)
      end
  end.

Lemma Rep_stuff_close c i t N e q a ls pl :
  Rep c i t N e q a ls pl ->
  (forall p, a_open a = Some p -> (length (wire t p) <= 188)%nat) ->
  exists e' q', stuff_close i e q = (e', q') /\
    R c i t N e' q'
      (match a_open a with
       | None => a_put a (a_done a) None (a_wr a) false
       | Some p =>
           a_put a (a_done a ++ [Pkt (k_cc p) (k_hd p) (188 - length (wire t p)) (k_data p)])
             None (a_wr a) false
       end) /\ qpost i N q q' /\ e_send e' = None /\ e_cur e' = None.
Proof.
  intros HR HL. unfold stuff_close. rewrite (r_cur _ _ _ _ _ _ _ _ _ HR).
  destruct (a_open a) as [p|] eqn:Ho; cbn [option_map].
  - set (p' := Pkt (k_cc p) (k_hd p) (188 - length (wire t p)) (k_data p)).
    cbv zeta. rewrite (stuffed_bytes t p) by (auto; apply (r_os _ _ _ _ _ _ _ _ _ HR p Ho)).
    fold p'.
    assert (E : (match pl with
                 | Temp => (set_send (set_cur (set_lastq e (length (q_slots q))) None) None,
                            get_buffer i q (Some (wire t p')))
                 | Slot m => (set_send (set_cur e None) None, fill m (wire t p') q)
                 end) =
                (set_send (set_cur (set_lastq e (close_n pl q)) None) None,
                 close_q i pl (wire t p') q)).
    { destruct pl as [|m]; [reflexivity|]. cbn [close_n close_q].
      assert (Hq : e_lastq e = m) by (apply (r_lasto _ _ _ _ _ _ _ _ _ HR); [congruence|reflexivity]).
      f_equal. unfold set_lastq. rewrite <- Hq. destruct e; reflexivity. }
    rewrite E. eexists _, _. split; [reflexivity|].
    pose proof (close_own _ _ _ _ _ _ _ _ _ _ (wire t p') HR Ho) as HO.
    pose proof (close_post _ _ _ _ _ _ _ _ _ _ (wire t p') HR Ho) as HQ.
    pose proof (close_n_lt _ _ _ _ _ _ _ _ _ _ (wire t p') HR Ho) as HLt.
    split; [|split; [exact HQ|split; reflexivity]].
    exists (ls ++ [(close_n pl q, p')]), Temp.
    destruct HR as [D O C F1 F2 F3 F4 F5 F6 OS PT AB SE LQ LO LA].
    destruct HQ as (_ & _ & _ & HQ4).
    constructor; simp; try assumption; try reflexivity; try discriminate.
    + rewrite map_app, D. reflexivity.
    + rewrite HO, enc_slot_app. unfold open_slot. simp. rewrite app_nil_r. reflexivity.
    + unfold above in *. simp. destruct AB as (X1 & _). split; [lia|].
      split; [intros H; congruence|discriminate].
    + split; reflexivity.
    + lia.
    + intros _ H. congruence.
  - eexists _, _. split; [reflexivity|].
    split; [|split; [apply qpost_refl|split; [reflexivity|]]].
    2: { simp. rewrite (r_cur _ _ _ _ _ _ _ _ _ HR), Ho. reflexivity. }
    exists ls, pl. destruct HR as [D O C F1 F2 F3 F4 F5 F6 OS PT AB SE LQ LO LA].
    rewrite Ho in *.
    constructor; simp; try assumption; try reflexivity; try discriminate.
    + unfold open_slot in *. simp. rewrite Ho in O. exact O.
    + unfold above in *. simp. destruct AB as (X1 & _). split; [lia|].
      split; [intros H; congruence|discriminate].
    + split; reflexivity.
Qed.

Definition stuff_pre (t : strm) (a : aenc) : Prop :=
  (forall p, a_open a = Some p -> (length (wire t p) <= 188)%nat) /\
  (negb (a_wr a =? 0) && negb (is_video t) = true -> a_ok a = true) /\
  0 <= a_wr a.

Lemma stuff_cur_eq c i t e q :
  stuff_cur c i t e q =
  let '(e, q) :=
    if negb (e_wr e =? 0) && negb (is_video t) then
      let v := get16 (pointed e q) (snd (e_ptr e)) + e_wr e in
      let '(e, q) := patch e q (if 65535 <? v then 0 else v) in
      (set_wr e 0, q)
    else (e, q) in
  stuff_close i e q.
Proof. reflexivity. Qed.

Lemma len_set_v t v p : length (wire t (set_v v p)) = length (wire t p).
Proof.
  rewrite !len_wire. unfold set_v, hlen. destruct (k_hd p) as [[[f al] w]|] eqn:E; [|rewrite E; reflexivity].
  reflexivity.
Qed.

Lemma R_stuff c i t N e q a :
  R c i t N e q a -> stuff_pre t a ->
  exists e' q', stuff_cur c i t e q = (e', q') /\ R c i t N e' q' (a_stuff t a) /\ qpost i N q q' /\
    e_send e' = None /\ e_cur e' = None.
Proof.
  intros (ls & pl & HR) (HL & Hk & Hw). rewrite stuff_cur_eq. unfold a_stuff.
  rewrite (r_wr _ _ _ _ _ _ _ _ _ HR).
  destruct (negb (a_wr a =? 0) && negb (is_video t)) eqn:E.
  - specialize (Hk eq_refl). destruct (size_ok _ _ _ _ _ _ _ _ _ HR Hk) as [HS HV].
    cbv zeta. rewrite HS.
    set (v := if 65535 <? a_size a + a_wr a then 0 else a_size a + a_wr a).
    assert (Hv : 0 <= v < 65536) by (unfold v; destruct (65535 <? a_size a + a_wr a) eqn:E2; lia).
    destruct (Rep_patch _ _ _ _ _ _ _ _ _ v HR Hk Hv) as (e1 & q1 & -> & (ls1 & HR1) & HQ1).
    apply (Rep_set_wr _ _ _ _ _ _ _ _ _ 0) in HR1.
    assert (HL' : forall p, a_open (a_put (a_patch v a) (a_done (a_patch v a)) (a_open (a_patch v a)) 0
                                      (a_ok (a_patch v a))) = Some p -> (length (wire t p) <= 188)%nat).
    { simp. unfold a_patch. intros p. destruct (a_open a) as [p0|] eqn:Ho; [|discriminate].
      destruct (is_start p0); simp; intros Hp; injection Hp as <-; [rewrite len_set_v|]; apply HL; reflexivity. }
    destruct (Rep_stuff_close _ _ _ _ _ _ _ _ _ HR1 HL') as (e2 & q2 & -> & HR2 & HQ2 & HS2).
    exists e2, q2. split; [reflexivity|]. split; [exact HR2|].
    split; [eapply qpost_trans; eassumption|exact HS2].
  - destruct (Rep_stuff_close _ _ _ _ _ _ _ _ _ HR HL) as (e2 & q2 & -> & HR2 & HQ2 & HS2).
    exists e2, q2. split; [reflexivity|]. split; [exact HR2|]. split; [exact HQ2|exact HS2].
Qed.

(* A new packet. *)
Lemma Rep_init c i t N e q a ls pl direct :
  good_strm t -> Rep c i t N e q a ls pl -> a_open a = None -> e_send e <> None ->
  exists e' q', init_packet c i t direct e q = (e', q') /\
    (exists pl', Rep c i t N e' q' (a_init a) ls pl' /\
       e_ptr e' = e_ptr e /\ e_send e' = e_send e) /\ qpost i N q q'.
Proof.
  intros HG HR Ho Hs. unfold init_packet.
  pose proof (r_own _ _ _ _ _ _ _ _ _ HR) as HO. unfold open_slot in HO. rewrite Ho in HO.
  rewrite app_nil_r in HO.
  assert (AB0 : forall m q' pl', (length (q_slots q) <= length (q_slots q'))%nat ->
     (forall n, pl' = Slot n -> n = length (q_slots q)) ->
     above m e q a pl -> above m e q' (a_init a) pl').
  { intros m q' pl' HL Hpl (X1 & X2 & X3). split; [lia|]. split.
    - intros _ n Hn. rewrite (Hpl n Hn). exact X1.
    - intros Hk. apply X3. exact Hk. }
  destruct (direct || negb (c_inter c)) eqn:E.
  - eexists _, _. split; [reflexivity|]. split; [|apply qpost_get; apply (proj1 (r_above _ _ _ _ _ _ _ _ _ HR))].
    exists (Slot (length (q_slots q))). split; [|split; reflexivity].
    destruct HR as [D O C F1 F2 F3 F4 F5 F6 OS PT AB SE LQ LO LA].
    unfold a_init.
    constructor; simp; try assumption; try reflexivity.
    + rewrite own_get_same, HO. reflexivity.
    + rewrite wire_header by exact HG. rewrite F1. reflexivity.
    + lia.
    + intros p Hp. injection Hp as <-. reflexivity.
    + intros Hk. specialize (PT Hk). unfold ptr_at in *. simp. rewrite Ho in PT. cbn [is_start k_hd]. exact PT.
    + apply AB0; [rewrite len_get; lia| |exact AB]. intros n Hn. injection Hn as <-. reflexivity.
    + destruct (e_send e) as [m|]; [|congruence].
      apply AB0; [rewrite len_get; lia| |exact SE]. intros n Hn. injection Hn as <-. reflexivity.
    + rewrite len_get. lia.
    + intros _ n Hn. congruence.
    + intros _ _. split; [reflexivity|discriminate].
  - eexists _, _. split; [reflexivity|]. split; [|apply qpost_refl].
    exists Temp. split; [|split; reflexivity].
    destruct HR as [D O C F1 F2 F3 F4 F5 F6 OS PT AB SE LQ LO LA].
    apply orb_false_iff in E as [_ E]. apply negb_false_iff in E.
    unfold a_init.
    constructor; simp; try assumption; try reflexivity.
    + rewrite HO, app_nil_r. reflexivity.
    + rewrite wire_header by exact HG. rewrite F1. reflexivity.
    + lia.
    + intros p Hp. injection Hp as <-. reflexivity.
    + intros Hk. specialize (PT Hk). unfold ptr_at in *. simp. rewrite Ho in PT. cbn [is_start k_hd]. exact PT.
    + apply AB0; [lia|discriminate|exact AB].
    + destruct (e_send e) as [m|]; [|congruence]. apply AB0; [lia|discriminate|exact SE].
    + intros _ n Hn. discriminate.
    + intros H. congruence.
Qed.

(* A packet without head that is full at once. *)
Definition a_push (a : aenc) (p : pkt) : aenc :=
  A (a_done a ++ [p]) None (a_cc a + 1) (a_wr a) (a_fl a) (a_left a) (a_hdr a) None (a_ok a).

Lemma Rep_push c i t N e q a ls pl p :
  Rep c i t N e q a ls pl -> a_open a = None -> is_start p = false ->
  let n := length (q_slots q) in
  Rep c i t N
    (set_cur (set_cur (set_lastq (set_cc (set_pts e None) (e_cc e + 1)) n)
       (Some (Slot n, header t (e_cc e)))) None)
    (fill n (wire t p) (get_buffer i q None)) (a_push a p) (ls ++ [(n, p)]) Temp.
Proof.
  intros HR Ho Hp n. pose proof (r_own _ _ _ _ _ _ _ _ _ HR) as HO. unfold open_slot in HO.
  rewrite Ho, app_nil_r in HO.
  assert (HLen : length (q_slots (fill n (wire t p) (get_buffer i q None))) = S n)
    by (rewrite len_fill, len_get; reflexivity).
  assert (AB0 : forall m e', e_ptr e' = e_ptr e -> above m e q a pl ->
     above m e' (fill n (wire t p) (get_buffer i q None)) (a_push a p) Temp).
  { intros m e' He (X1 & X2 & X3). unfold above. rewrite HLen. split; [lia|]. split; [discriminate|].
    rewrite He. exact X3. }
  destruct HR as [D O C F1 F2 F3 F4 F5 F6 OS PT AB SE LQ LO LA].
  unfold a_push. constructor; simp; try assumption; try reflexivity; try discriminate.
  - rewrite map_app, D. reflexivity.
  - unfold n. rewrite own_full, HO, enc_slot_app. unfold open_slot. simp. rewrite app_nil_r. reflexivity.
  - lia.
  - intros Hk. specialize (PT Hk). unfold ptr_at in *. simp. rewrite Ho in PT.
    apply ptr_done_app; [exact Hp|]. exact PT.
  - apply AB0; [reflexivity|exact AB].
  - destruct (e_send e) as [m|].
    + apply AB0; [reflexivity|exact SE].
    + split; [reflexivity|]. apply SE.
  - rewrite HLen. lia.
  - intros _ H. congruence.
Qed.

Lemma R_full c i t N n : good_strm t -> forall buf e q a,
  R c i t N e q a -> a_open a = None -> 
  exists e' q', write_full c i t n buf e q = (e', q') /\ R c i t N e' q' (a_full n buf a) /\ qpost i N q q' /\
    e_ptr e' = e_ptr e /\ e_send e' = e_send e.
Proof.
  intros HG. induction n as [|n IH]; intros buf e q a HR Ho.
  - exists e, q. split; [reflexivity|]. split; [exact HR|]. split; [apply qpost_refl|auto].
  - destruct HR as (ls & pl & HR). cbn [write_full a_full].
    unfold init_packet. cbn [orb]. simp.
    pose proof (Rep_push _ _ _ _ _ _ _ _ _ (Pkt (a_cc a) None 0 (firstn 184 buf)) HR Ho eq_refl) as HR1.
    cbv zeta in HR1.
    assert (EW : wire t (Pkt (a_cc a) None 0 (firstn 184 buf)) = header t (e_cc e) ++ firstn 184 buf).
    { rewrite wire_header by exact HG. rewrite wire_app. rewrite (r_cc _ _ _ _ _ _ _ _ _ HR). reflexivity. }
    rewrite EW in HR1.
    edestruct (IH (skipn 184 buf)) as (e' & q' & E1 & H1 & H2 & H3 & H4); [eexists _, _; exact HR1|reflexivity|].
    rewrite E1. eexists _, _. split; [reflexivity|]. split; [exact H1|]. split; [|split; assumption].
    eapply qpost_trans; [apply qpost_full; apply (proj1 (r_above _ _ _ _ _ _ _ _ _ HR))|exact H2].
Qed.

Lemma R_nulls c i t N n : good_strm t -> forall e q a,
  R c i t N e q a -> a_open a = None ->
  exists e' q', append_nulls c i t n e q = (e', q') /\ R c i t N e' q' (a_nulls n a) /\ qpost i N q q' /\
    e_send e' = e_send e /\ (e_cur e = None -> e_cur e' = None).
Proof.
  intros HG. induction n as [|n IH]; intros e q a HR Ho.
  - exists e, q. split; [reflexivity|]. split; [exact HR|]. split; [apply qpost_refl|auto].
  - destruct HR as (ls & pl & HR). cbn [append_nulls a_nulls].
    pose proof (Rep_push _ _ _ _ _ _ _ _ _ (Pkt (a_cc a) None 184 []) HR Ho eq_refl) as HR1.
    cbv zeta in HR1. rewrite <- null_wire in HR1 by exact HG. rewrite <- (r_cc _ _ _ _ _ _ _ _ _ HR) in HR1.
    match type of HR1 with Rep _ _ _ _ ?e1 ?q1 _ _ _ =>
      change (append_null c i t e q) with (e1, q1) end.
    edestruct IH as (e' & q' & E1 & H1 & H2 & H3 & H4); [eexists _, _; exact HR1|reflexivity|].
    rewrite E1. eexists _, _. split; [reflexivity|].
    split; [rewrite (r_cc _ _ _ _ _ _ _ _ _ HR) in H1; exact H1|]. split; [|split; [exact H3|intros _; apply H4; reflexivity]].
    eapply qpost_trans; [apply qpost_full; apply (proj1 (r_above _ _ _ _ _ _ _ _ _ HR))|exact H2].
Qed.
