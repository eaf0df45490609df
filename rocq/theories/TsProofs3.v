(* The real encoder does what the encoder on packets does. *)

From Coq Require Import ZArith List Bool Lia ZifyBool.
From Verif Require Import Lists TsModel TsSpec TsProofs TsProofs2.
Import ListNotations.
Open Scope Z_scope.

Definition enc_slot (t : strm) (np : nat * pkt) : nat * option (list Z) :=
  (fst np, Some (wire t (snd np))).
Definition open_slot (a : aenc) (pl : place) : list (nat * option (list Z)) :=
  match a_open a, pl with Some _, Slot n => [(n, None)] | _, _ => [] end.

Definition vin (p : pkt) : Prop :=
  match k_hd p with Some (_, _, v) => 0 <= v < 65536 | None => True end.

Definition ptr_done (t : strm) (e : enc) (ls : list (nat * pkt)) : Prop :=
  exists l1 n p l2,
    ls = l1 ++ (n, p) :: l2 /\ is_start p = true /\ existsb is_start (map snd l2) = false /\
    k_stuff p = O /\ e_ptr e = (Slot n, size_off t) /\ vin p.

Definition ptr_at (t : strm) (e : enc) (a : aenc) (ls : list (nat * pkt)) (pl : place) : Prop :=
  match a_open a with
  | Some p => if is_start p then e_ptr e = (pl, size_off t) /\ vin p else ptr_done t e ls
  | None => ptr_done t e ls
  end.

Definition above (m : nat) (e : enc) (q : queue) (a : aenc) (pl : place) : Prop :=
  (m <= length (q_slots q))%nat /\
  (a_open a <> None -> forall n, pl = Slot n -> (m <= n)%nat) /\
  (a_ok a = true -> forall n o, e_ptr e = (Slot n, o) -> (m <= n)%nat).

Record Rep (c : conf) (i : nat) (t : strm) (N : nat) (e : enc) (q : queue) (a : aenc)
  (ls : list (nat * pkt)) (pl : place) : Prop := {
  r_done : map snd ls = a_done a;
  r_own : own i q = map (enc_slot t) ls ++ open_slot a pl;
  r_cur : e_cur e = option_map (fun p => (pl, wire t p)) (a_open a);
  r_cc : e_cc e = a_cc a;
  r_wr : e_wr e = a_wr a;
  r_fl : e_fl e = a_fl a;
  r_left : e_left e = a_left a;
  r_hdr : e_hdr e = a_hdr a;
  r_pts : e_pts e = a_pts a;
  r_os : forall p, a_open a = Some p -> k_stuff p = O;
  r_ptr : a_ok a = true -> ptr_at t e a ls pl;
  r_above : above N e q a pl;
  r_send : match e_send e with
           | Some m => above m e q a pl
           | None => a_open a = None /\ a_ok a = false
           end;
  r_lastq : (e_lastq e <= length (q_slots q))%nat;
  r_lasto : a_open a <> None -> forall n, pl = Slot n -> e_lastq e = n;
  r_last : c_inter c = false -> a_open a <> None -> q_last q = Some i /\ pl <> Temp
}.

Definition R c i t N e q a : Prop := exists ls pl, Rep c i t N e q a ls pl.

(* What an operation of stream i may do to the queue. *)
Definition qpost (i N : nat) (q q' : queue) : Prop :=
  keeps N q q' /\
  (forall j, j <> i -> own j q' = own j q) /\
  (q_last q' = q_last q \/ q_last q' = Some i) /\
  (length (q_slots q) <= length (q_slots q'))%nat.

Lemma qpost_refl i N q : qpost i N q q.
Proof. split; [apply keeps_refl|]. split; [reflexivity|]. split; [left; reflexivity|lia]. Qed.

Lemma qpost_trans i N q1 q2 q3 : qpost i N q1 q2 -> qpost i N q2 q3 -> qpost i N q1 q3.
Proof.
  intros (A1 & A2 & A3 & A4) (B1 & B2 & B3 & B4). split; [|split; [|split]].
  - eapply keeps_trans; eassumption.
  - intros j Hj. rewrite B2, A2 by exact Hj. reflexivity.
  - destruct B3 as [->|]; auto.
  - lia.
Qed.

Lemma qpost_get i N q x : (N <= length (q_slots q))%nat -> qpost i N q (get_buffer i q x).
Proof.
  intros H. split; [apply keeps_get; exact H|]. split; [|split].
  - intros j Hj. rewrite own_get. assert (E : (i =? j)%nat = false) by (apply Nat.eqb_neq; congruence).
    rewrite E. apply app_nil_r.
  - right. reflexivity.
  - rewrite len_get. lia.
Qed.

Lemma qpost_fill i N n b q y :
  nth_error (q_slots q) n = Some (i, y) -> (N <= n)%nat -> qpost i N q (fill n b q).
Proof.
  intros H HN. split; [apply keeps_fill; exact HN|]. split; [|split].
  - intros j Hj. apply (own_fill_other j i q n b y); [congruence|exact H].
  - left. apply last_fill.
  - rewrite len_fill. lia.
Qed.

Lemma own_get_same i q x : own i (get_buffer i q x) = own i q ++ [(length (q_slots q), x)].
Proof. rewrite own_get, Nat.eqb_refl. reflexivity. Qed.

(* A packet is put at the end. *)
Lemma own_full i q b :
  own i (fill (length (q_slots q)) b (get_buffer i q None)) = own i q ++ [(length (q_slots q), Some b)].
Proof.
  rewrite (own_fill i _ _ b None).
  - rewrite own_get_same. apply rep_mid. rewrite <- own_get_same with (x := None). apply own_nodup.
  - unfold get_buffer. cbn [q_slots]. rewrite nth_error_app2, Nat.sub_diag by lia. reflexivity.
Qed.

Lemma qpost_full i N q b :
  (N <= length (q_slots q))%nat -> qpost i N q (fill (length (q_slots q)) b (get_buffer i q None)).
Proof.
  intros H. eapply qpost_trans; [apply (qpost_get i N q None H)|].
  apply qpost_fill with (y := None); [|exact H].
  unfold get_buffer. cbn [q_slots]. rewrite nth_error_app2, Nat.sub_diag by lia. reflexivity.
Qed.

(* The open packet is closed. *)
Definition close_q (i : nat) (pl : place) (b : list Z) (q : queue) : queue :=
  match pl with Temp => get_buffer i q (Some b) | Slot n => fill n b q end.
Definition close_n (pl : place) (q : queue) : nat :=
  match pl with Temp => length (q_slots q) | Slot n => n end.

Lemma open_in c i t N e q a ls n p :
  Rep c i t N e q a ls (Slot n) -> a_open a = Some p -> nth_error (q_slots q) n = Some (i, None).
Proof.
  intros HR Ho. apply own_in. rewrite (r_own _ _ _ _ _ _ _ _ _ HR). unfold open_slot. rewrite Ho.
  apply in_or_app. right. left. reflexivity.
Qed.

Lemma close_own c i t N e q a ls pl p b :
  Rep c i t N e q a ls pl -> a_open a = Some p ->
  own i (close_q i pl b q) = map (enc_slot t) ls ++ [(close_n pl q, Some b)].
Proof.
  intros HR Ho. pose proof (r_own _ _ _ _ _ _ _ _ _ HR) as HO. unfold open_slot in HO.
  rewrite Ho in HO. destruct pl as [|n]; cbn [close_q close_n].
  - rewrite own_get_same, HO, app_nil_r. reflexivity.
  - rewrite (own_fill i q n b None) by (eapply open_in; eassumption).
    rewrite HO. apply rep_mid. rewrite <- HO. apply own_nodup.
Qed.

Lemma close_post c i t N e q a ls pl p b :
  Rep c i t N e q a ls pl -> a_open a = Some p -> qpost i N q (close_q i pl b q).
Proof.
  intros HR Ho. destruct (r_above _ _ _ _ _ _ _ _ _ HR) as (H1 & H2 & _).
  destruct pl as [|n]; cbn [close_q].
  - apply qpost_get. exact H1.
  - apply qpost_fill with (y := None); [eapply open_in; eassumption|].
    apply H2; [congruence|reflexivity].
Qed.

Lemma close_len i pl b q :
  length (q_slots (close_q i pl b q)) =
  match pl with Temp => S (length (q_slots q)) | Slot _ => length (q_slots q) end.
Proof. destruct pl; cbn [close_q]; [apply len_get|apply len_fill]. Qed.

Lemma close_n_lt c i t N e q a ls pl p b :
  Rep c i t N e q a ls pl -> a_open a = Some p ->
  (close_n pl q < length (q_slots (close_q i pl b q)))%nat.
Proof.
  intros HR Ho. rewrite close_len. destruct pl as [|n]; cbn [close_n]; [lia|].
  apply nth_error_Some. erewrite open_in by eassumption. discriminate.
Qed.

Lemma enc_slot_app t ls n p :
  map (enc_slot t) ls ++ [(n, Some (wire t p))] = map (enc_slot t) (ls ++ [(n, p)]).
Proof. rewrite map_app. reflexivity. Qed.

Lemma ptr_done_app t e ls n p : is_start p = false -> ptr_done t e ls -> ptr_done t e (ls ++ [(n, p)]).
Proof.
  intros Hp (l1 & m & x & l2 & -> & H1 & H2 & H3). exists l1, m, x, (l2 ++ [(n, p)]).
  split; [rewrite <- app_assoc; reflexivity|]. split; [exact H1|]. split; [|exact H3].
  rewrite map_app, existsb_app, H2. cbn. rewrite Hp. reflexivity.
Qed.

(* ------------------------------------------------------------------ *)
(* The size of the PES packet                                           *)

Lemma existsb_false_patch v l : existsb is_start l = false -> map (set_v v) l = l.
Proof.
  induction l as [|p l IH]; [reflexivity|]. cbn [existsb map]. intros H.
  apply orb_false_iff in H as [H1 H2]. rewrite (IH H2). f_equal.
  unfold set_v, is_start in *. destruct (k_hd p); [discriminate|reflexivity].
Qed.

Lemma patch_mid v l1 p l2 :
  is_start p = true -> existsb is_start l2 = false ->
  patch_done v (l1 ++ p :: l2) = l1 ++ set_v v p :: l2.
Proof.
  intros Hp H2. induction l1 as [|x l1 IH]; cbn [app patch_done].
  - rewrite H2. reflexivity.
  - rewrite existsb_app. cbn [existsb]. rewrite Hp, orb_true_r. rewrite IH. reflexivity.
Qed.

Lemma last_v_mid l1 p l2 f al v :
  k_hd p = Some (f, al, v) -> existsb is_start l2 = false -> last_v (l1 ++ p :: l2) = v.
Proof.
  intros Hp H2. assert (Hs : is_start p = true) by (unfold is_start; rewrite Hp; reflexivity).
  induction l1 as [|x l1 IH]; cbn [app last_v].
  - rewrite H2, Hp. reflexivity.
  - rewrite existsb_app. cbn [existsb]. rewrite Hs, orb_true_r. exact IH.
Qed.

Lemma start_hd p : is_start p = true -> exists f al v, k_hd p = Some (f, al, v).
Proof. unfold is_start. destruct (k_hd p) as [[[f al] v]|]; [eauto|discriminate]. Qed.

Lemma same_refl p : same p p = true.
Proof. destruct p; [reflexivity|]. cbn. apply Nat.eqb_refl. Qed.

Lemma done_in c i t N e q a ls pl l1 n p l2 :
  Rep c i t N e q a ls pl -> ls = l1 ++ (n, p) :: l2 ->
  nth_error (q_slots q) n = Some (i, Some (wire t p)).
Proof.
  intros HR ->. apply own_in. rewrite (r_own _ _ _ _ _ _ _ _ _ HR).
  apply in_or_app. left. apply in_map_iff. exists (n, p). split; [reflexivity|].
  apply in_or_app. right. left. reflexivity.
Qed.

Lemma not_same c i t N e q a ls pl l1 n p l2 p' :
  Rep c i t N e q a ls pl -> ls = l1 ++ (n, p) :: l2 -> a_open a = Some p' -> same pl (Slot n) = false.
Proof.
  intros HR Hl Ho. destruct pl as [|m]; [reflexivity|]. cbn.
  destruct (m =? n)%nat eqn:E; [|reflexivity]. apply Nat.eqb_eq in E. subst m.
  pose proof (done_in _ _ _ _ _ _ _ _ _ _ _ _ _ HR Hl) as H1.
  pose proof (open_in _ _ _ _ _ _ _ _ _ _ HR Ho) as H2. congruence.
Qed.

Lemma pointed_ok c i t N e q a ls pl :
  Rep c i t N e q a ls pl -> a_ok a = true ->
  exists p, is_start p = true /\ vin p /\ k_stuff p = O /\ pointed e q = wire t p /\
    snd (e_ptr e) = size_off t /\
    a_size a = match k_hd p with Some (_, _, v) => v | None => 0 end.
Proof.
  intros HR Hk. pose proof (r_ptr _ _ _ _ _ _ _ _ _ HR Hk) as HP. unfold ptr_at in HP.
  pose proof (r_cur _ _ _ _ _ _ _ _ _ HR) as HC.
  assert (Done : ptr_done t e ls -> (match a_open a with Some p => is_start p = false | None => True end) ->
    exists p, is_start p = true /\ vin p /\ k_stuff p = O /\ pointed e q = wire t p /\
      snd (e_ptr e) = size_off t /\
      a_size a = match k_hd p with Some (_, _, v) => v | None => 0 end).
  { intros (l1 & n & p & l2 & Hl & H1 & H2 & H3 & H4 & H5) Hop. exists p.
    split; [exact H1|]. split; [exact H5|]. split; [exact H3|].
    pose proof (done_in _ _ _ _ _ _ _ _ _ _ _ _ _ HR Hl) as Hin.
    split.
    - unfold pointed. rewrite HC, H4. cbn [fst]. destruct (a_open a) as [p'|] eqn:Ho; cbn [option_map].
      + rewrite (not_same _ _ _ _ _ _ _ _ _ _ _ _ _ _ HR Hl Ho), Hin. reflexivity.
      + rewrite Hin. reflexivity.
    - split; [rewrite H4; reflexivity|]. destruct (start_hd p H1) as (f & al & v & Hh). rewrite Hh.
      unfold a_size. rewrite <- (r_done _ _ _ _ _ _ _ _ _ HR), Hl, map_app. cbn [map snd].
      destruct (a_open a) as [p'|].
      + unfold is_start in Hop. destruct (k_hd p') as [[[? ?] ?]|]; [discriminate|].
        eapply last_v_mid; eassumption.
      + eapply last_v_mid; eassumption. }
  destruct (a_open a) as [p|] eqn:Ho; [|apply Done; [exact HP|exact I]].
  destruct (is_start p) eqn:Es; [|apply Done; [exact HP|reflexivity]].
  destruct HP as [HP HV]. exists p. split; [exact Es|]. split; [exact HV|].
  split; [apply (r_os _ _ _ _ _ _ _ _ _ HR p Ho)|]. split.
  - unfold pointed. rewrite HC, HP. cbn [option_map fst]. rewrite same_refl. reflexivity.
  - split; [rewrite HP; reflexivity|]. unfold a_size. rewrite Ho.
    destruct (start_hd p Es) as (f & al & v & Hh). rewrite Hh. reflexivity.
Qed.

Lemma size_ok c i t N e q a ls pl :
  Rep c i t N e q a ls pl -> a_ok a = true ->
  get16 (pointed e q) (snd (e_ptr e)) = a_size a /\ 0 <= a_size a < 65536.
Proof.
  intros HR Hk. destruct (pointed_ok _ _ _ _ _ _ _ _ _ HR Hk) as (p & H1 & H2 & H3 & H4 & H5 & H6).
  rewrite H4, H5, H6. unfold vin in H2. destruct (start_hd p H1) as (f & al & v & Hh).
  rewrite Hh in *. split; [|exact H2]. destruct p as [cc h st d]. cbn in Hh, H3. subst h st.
  apply get16_wire. exact H2.
Qed.

Lemma set_v_wire t v p :
  is_start p = true -> k_stuff p = O -> put16 (wire t p) (size_off t) v = wire t (set_v v p).
Proof.
  intros H1 H2. destruct (start_hd p H1) as (f & al & w & Hh). destruct p as [cc h st d].
  cbn in Hh, H2. subst h st. unfold set_v. cbn [k_hd k_cc k_stuff k_data]. apply put16_wire.
Qed.

Lemma set_v_props v p :
  is_start p = true -> 0 <= v < 65536 ->
  is_start (set_v v p) = true /\ vin (set_v v p) /\ k_stuff (set_v v p) = k_stuff p.
Proof.
  intros H1 Hv. destruct (start_hd p H1) as (f & al & w & Hh). unfold set_v, is_start, vin. rewrite Hh.
  cbn [k_hd k_stuff]. auto.
Qed.

Lemma rep_slots t l1 n p p' l2 o :
  NoDup (map fst (map (enc_slot t) (l1 ++ (n, p) :: l2) ++ o)) ->
  map (rep n (Some (wire t p'))) (map (enc_slot t) (l1 ++ (n, p) :: l2) ++ o) =
  map (enc_slot t) (l1 ++ (n, p') :: l2) ++ o.
Proof.
  rewrite !(map_app (enc_slot t)). cbn [map]. rewrite <- !app_assoc. cbn [app].
  change (enc_slot t (n, p)) with (n, Some (wire t p)).
  change (enc_slot t (n, p')) with (n, Some (wire t p')). intros H.
  apply rep_mid. exact H.
Qed.

Lemma Rep_patch c i t N e q a ls pl v :
  Rep c i t N e q a ls pl -> a_ok a = true -> 0 <= v < 65536 ->
  exists e' q', patch e q v = (e', q') /\
    (exists ls', Rep c i t N e' q' (a_patch v a) ls' pl) /\ qpost i N q q'.
Proof.
  intros HR Hk Hv. pose proof (r_ptr _ _ _ _ _ _ _ _ _ HR Hk) as HP. unfold ptr_at in HP.
  pose proof (r_cur _ _ _ _ _ _ _ _ _ HR) as HC.
  destruct (pointed_ok _ _ _ _ _ _ _ _ _ HR Hk) as (p0 & P1 & P2 & P3 & P4 & P5 & P6).
  assert (Done : ptr_done t e ls -> (match a_open a with Some p => is_start p = false | None => True end) ->
    exists e' q', patch e q v = (e', q') /\
    (exists ls', Rep c i t N e' q' (a_patch v a) ls' pl) /\ qpost i N q q').
  { intros (l1 & n & p & l2 & Hl & H1 & H2 & H3 & H4 & H5) Hop.
    pose proof (done_in _ _ _ _ _ _ _ _ _ _ _ _ _ HR Hl) as Hin.
    assert (EP : patch e q v = (e, fill n (wire t (set_v v p)) q)).
    { unfold patch. rewrite <- (set_v_wire t v p H1 H3), P5.
      assert (Hpt : pointed e q = wire t p).
      { unfold pointed. rewrite HC, H4. cbn [fst]. destruct (a_open a) as [p'|] eqn:Ho; cbn [option_map].
        + rewrite (not_same _ _ _ _ _ _ _ _ _ _ _ _ _ _ HR Hl Ho), Hin. reflexivity.
        + rewrite Hin. reflexivity. }
      rewrite Hpt, HC, H4. cbn [fst]. destruct (a_open a) as [p'|] eqn:Ho; cbn [option_map]; [|reflexivity].
      rewrite (not_same _ _ _ _ _ _ _ _ _ _ _ _ _ _ HR Hl Ho). reflexivity. }
    assert (HN : (N <= n)%nat).
    { destruct (r_above _ _ _ _ _ _ _ _ _ HR) as (_ & _ & Ha). eapply Ha; eassumption. }
    exists e, (fill n (wire t (set_v v p)) q). split; [exact EP|].
    split; [|apply (qpost_fill _ _ _ _ _ _ Hin HN)].
    exists (l1 ++ (n, set_v v p) :: l2).
    assert (Ea : a_patch v a = a_put a (patch_done v (a_done a)) (a_open a) (a_wr a) (a_ok a)).
    { unfold a_patch. destruct (a_open a) as [p'|]; [|reflexivity]. rewrite Hop. reflexivity. }
    destruct (set_v_props v p H1 Hv) as (S1 & S2 & S3).
    rewrite Ea. destruct HR as [D O C F1 F2 F3 F4 F5 F6 OS PT AB SE LQ LO LA].
    constructor; cbn [a_put a_done a_open a_cc a_wr a_fl a_left a_hdr a_pts a_ok]; try assumption.
    - rewrite <- D, Hl, !map_app. cbn [map snd]. symmetry. apply patch_mid; assumption.
    - rewrite (own_fill i q n _ _ Hin).
      assert (ND : NoDup (map fst (own i q))) by apply own_nodup. rewrite O, Hl in ND.
      rewrite O, Hl. apply rep_slots. exact ND.
    - intros _. unfold ptr_at. cbn [a_put a_open].
      assert (PD : ptr_done t e (l1 ++ (n, set_v v p) :: l2)).
      { exists l1, n, (set_v v p), l2. repeat (split; [congruence || assumption|]). assumption. }
      destruct (a_open a) as [p'|]; [rewrite Hop|]; exact PD.
    - unfold above in *. cbn [a_put a_open a_ok]. rewrite len_fill. exact AB.
    - destruct (e_send e) as [m|]; [|exact SE].
      unfold above in *. cbn [a_put a_open a_ok]. rewrite len_fill. exact SE.
    - rewrite len_fill. exact LQ.
    - rewrite last_fill. exact LA. }
  destruct (a_open a) as [p|] eqn:Ho; [|apply Done; [exact HP|exact I]].
  destruct (is_start p) eqn:Es; [|apply Done; [exact HP|reflexivity]].
  clear Done. destruct HP as [HP HV].
  assert (Hst : k_stuff p = O) by apply (r_os _ _ _ _ _ _ _ _ _ HR p Ho).
  destruct (set_v_props v p Es Hv) as (S1 & S2 & S3).
  exists (set_cur e (Some (pl, wire t (set_v v p)))), q.
  split; [|split; [|apply qpost_refl]].
  - unfold patch, pointed. rewrite HC, HP. cbn [option_map fst snd]. rewrite same_refl.
    rewrite set_v_wire by assumption. reflexivity.
  - exists ls. destruct HR as [D O C F1 F2 F3 F4 F5 F6 OS PT AB SE LQ LO LA].
    unfold a_patch. rewrite Ho, Es.
    constructor; cbn [a_put a_done a_open a_cc a_wr a_fl a_left a_hdr a_pts a_ok
      set_cur e_cur e_cc e_wr e_fl e_left e_hdr e_pts e_lastq e_ptr e_send]; try assumption.
    + unfold open_slot in *. cbn [a_put a_open]. rewrite Ho in O. exact O.
    + reflexivity.
    + intros p' Hp'. injection Hp' as <-. rewrite S3. exact Hst.
    + intros _. unfold ptr_at. cbn [a_put a_open]. rewrite S1. split; [exact HP|exact S2].
    + unfold above in *. cbn [a_put a_open a_ok set_cur e_ptr]. rewrite Ho in AB.
      destruct AB as (X1 & X2 & X3). split; [exact X1|]. split; [|exact X3]. intros _. apply X2. discriminate.
    + destruct (e_send e) as [m|].
      * unfold above in *. cbn [a_put a_open a_ok set_cur e_ptr]. rewrite Ho in SE.
        destruct SE as (X1 & X2 & X3). split; [exact X1|]. split; [|exact X3]. intros _. apply X2. discriminate.
      * destruct SE as [SE _]. congruence.
    + intros _. apply LO. congruence.
    + intros H1 _. apply LA; [exact H1|congruence].
Qed.
