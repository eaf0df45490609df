(* The same for write, sub frame and flush. *)

From Coq Require Import ZArith List Bool Lia ZifyBool.
From Verif Require Import Lists TsModel TsSpec TsProofs TsProofs2 TsProofs3 TsProofs4 TsProofs5.
Import ListNotations.
Open Scope Z_scope.

Lemma set_cur_none e : e_cur e = None -> set_cur e None = e.
Proof. intros H. destruct e as [a b c d f g h k l m]. cbn in H. subst b. reflexivity. Qed.

(* The open packet is closed with more data in it. *)
Definition rebase (pl : place) (n : nat) (e : enc) : enc :=
  match pl with
  | Temp => set_ptr (set_lastq e n)
              (match fst (e_ptr e) with Temp => (Slot n, snd (e_ptr e)) | _ => e_ptr e end)
  | Slot _ => e
  end.

Lemma Rep_close_more c i t N e q a ls pl p x :
  Rep c i t N e q a ls pl -> a_open a = Some p -> a_ok a = true ->
  Rep c i t N (set_cur (rebase pl (close_n pl q) e) None) (close_q i pl (wire t p ++ x) q)
    (a_put a (a_done a ++ [a_more p x]) None (a_wr a) true)
    (ls ++ [(close_n pl q, a_more p x)]) Temp.
Proof.
  intros HR Ho Hk.
  assert (Hst : k_stuff p = 0%nat) by (apply (r_os _ _ _ _ _ _ _ _ _ HR p Ho)).
  assert (EW : wire t p ++ x = wire t (a_more p x)) by (destruct p; apply wire_app).
  rewrite EW.
  assert (ES : is_start (a_more p x) = is_start p) by (destruct p; reflexivity).
  pose proof (close_own _ _ _ _ _ _ _ _ _ _ (wire t (a_more p x)) HR Ho) as HO.
  pose proof (close_n_lt _ _ _ _ _ _ _ _ _ _ (wire t (a_more p x)) HR Ho) as HLt.
  destruct (close_post _ _ _ _ _ _ _ _ _ _ (wire t (a_more p x)) HR Ho) as (_ & _ & _ & HQ4).
  set (e' := set_cur (rebase pl (close_n pl q) e) None).
  set (q' := close_q i pl (wire t (a_more p x)) q) in *.
  assert (Fields : e_cc e' = e_cc e /\ e_wr e' = e_wr e /\ e_fl e' = e_fl e /\ e_left e' = e_left e /\
     e_hdr e' = e_hdr e /\ e_pts e' = e_pts e /\ e_send e' = e_send e /\ e_cur e' = None /\
     e_lastq e' = (match pl with Temp => close_n pl q | Slot _ => e_lastq e end)).
  { unfold e'. destruct pl; cbn [rebase]; simp; repeat split. }
  destruct Fields as (G1 & G2 & G3 & G4 & G5 & G6 & G7 & G8 & G9).
  assert (PD : ptr_done t e' (ls ++ [(close_n pl q, a_more p x)])).
  { pose proof (r_ptr _ _ _ _ _ _ _ _ _ HR Hk) as PT. unfold ptr_at in PT. rewrite Ho in PT.
    destruct (is_start p) eqn:Es.
    - destruct PT as [PT HV]. exists ls, (close_n pl q), (a_more p x), [].
      split; [reflexivity|]. split; [congruence|]. split; [reflexivity|]. split; [exact Hst|].
      split; [|destruct p; exact HV]. unfold e'. destruct pl as [|n]; cbn [rebase]; simp; rewrite PT; reflexivity.
    - apply ptr_done_app; [congruence|].
      destruct PT as (l1 & m & y & l2 & H1 & H2 & H3 & H4 & H5 & H6). exists l1, m, y, l2.
      repeat (split; [assumption|]). split; [|exact H6].
      unfold e'. destruct pl as [|n]; cbn [rebase]; simp; rewrite H5; reflexivity. }
  assert (AB0 : forall m, above m e q a pl -> above m e' q' (a_put a (a_done a ++ [a_more p x]) None (a_wr a) true) Temp).
  { intros m (X1 & X2 & X3). unfold above. simp. split; [lia|].
    split; [discriminate|]. intros _ n o Hn. unfold e' in Hn.
    destruct pl as [|k]; cbn [rebase close_n] in Hn; simp.
    - destruct (e_ptr e) as [[|k] o'] eqn:Ep; simp.
      + injection Hn as <- _. exact X1.
      + injection Hn as <- _. apply (X3 Hk _ _ eq_refl).
    - apply (X3 Hk _ _ Hn). }
  destruct HR as [D OO C F1 F2 F3 F4 F5 F6 OS PT AB SE LQ LO LA].
  constructor; simp; try congruence; try discriminate.
  - rewrite map_app, D. reflexivity.
  - rewrite HO, enc_slot_app. unfold open_slot. simp. rewrite app_nil_r. reflexivity.
  - intros _. unfold ptr_at. simp. exact PD.
  - apply AB0. exact AB.
  - rewrite G7. destruct (e_send e) as [m|]; [apply AB0; exact SE|]. destruct SE. congruence.
  - rewrite G9. destruct pl; lia.
Qed.

Lemma send_ok c i t N e q a ls pl : Rep c i t N e q a ls pl -> a_ok a = true -> e_send e <> None.
Proof.
  intros HR Hk H. pose proof (r_send _ _ _ _ _ _ _ _ _ HR) as SE. rewrite H in SE. destruct SE. congruence.
Qed.

Lemma a_full_open n buf a : a_open a = None -> a_open (a_full n buf a) = None.
Proof. revert buf a. induction n as [|n IH]; intros buf a H; [exact H|]. cbn [a_full]. apply IH. reflexivity. Qed.

Lemma a_full_ok n buf a : a_ok (a_full n buf a) = a_ok a.
Proof. revert buf a. induction n as [|n IH]; intros buf a; [reflexivity|]. cbn [a_full]. rewrite IH. reflexivity. Qed.

Lemma R_write c i t N e q a buf :
  good_strm t -> R c i t N e q a -> a_ok a = true ->
  (forall p, a_open a = Some p -> (length (wire t p) < 188)%nat) ->
  exists e' q', write c i t buf e q = (e', q') /\ R c i t N e' q' (a_write t buf a) /\ qpost i N q q'.
Proof.
  intros HG (ls & pl & HR0) Hk Hp. unfold write, a_write.
  pose proof (Rep_set_wr _ _ _ _ _ _ _ _ _ (a_wr a + zlen buf) HR0) as HR.
  rewrite (r_wr _ _ _ _ _ _ _ _ _ HR0).
  set (e1 := set_wr e (a_wr a + zlen buf)) in *.
  set (a1 := a_put a (a_done a) (a_open a) (a_wr a + zlen buf) (a_ok a)) in *.
  assert (Hk1 : a_ok a1 = true) by exact Hk.
  pose proof (send_ok _ _ _ _ _ _ _ _ _ HR Hk1) as Hs1.
  assert (Hp1 : forall p, a_open a1 = Some p -> (length (wire t p) < 188)%nat) by exact Hp.
  clearbody e1 a1. clear HR0 Hp Hk a e. rename e1 into e, a1 into a.
  (* a packet is opened *)
  assert (Hop : exists e1 q1 pl1 a1, 
     (match e_cur e with None => init_packet c i t (184 <=? zlen buf) e q | Some _ => (e, q) end) = (e1, q1) /\
     (match a_open a with None => a_init a | Some _ => a end) = a1 /\
     Rep c i t N e1 q1 a1 ls pl1 /\ qpost i N q q1 /\ a_ok a1 = true /\
     exists p, a_open a1 = Some p /\ (length (wire t p) < 188)%nat).
  { rewrite (r_cur _ _ _ _ _ _ _ _ _ HR). destruct (a_open a) as [p|] eqn:Ho; cbn [option_map].
    - exists e, q, pl, a. split; [reflexivity|]. split; [reflexivity|]. split; [exact HR|].
      split; [apply qpost_refl|]. split; [exact Hk1|]. exists p. auto.
    - destruct (Rep_init _ _ _ _ _ _ _ _ _ (184 <=? zlen buf) HG HR Ho Hs1) as (e1 & q1 & -> & (pl1 & HR1 & _) & HQ1).
      exists e1, q1, pl1, (a_init a). split; [reflexivity|]. split; [reflexivity|]. split; [exact HR1|].
      split; [exact HQ1|]. split; [exact Hk1|]. eexists. split; [reflexivity|].
      rewrite len_wire. cbn [k_data k_stuff hlen k_hd length]. lia. }
  destruct Hop as (e1 & q1 & pl1 & a1 & -> & -> & HR1 & HQ1 & Hk2 & p & Ho & HL).
  rewrite Ho. rewrite (r_cur _ _ _ _ _ _ _ _ _ HR1), Ho. cbn [option_map].
  destruct (length (wire t p) + length buf <? 188)%nat eqn:EF.
  - eexists _, _. split; [reflexivity|]. split; [|exact HQ1]. exists ls, pl1.
    apply Rep_more; assumption.
  - set (k := (188 - length (wire t p))%nat).
    pose proof (Rep_close_more _ _ _ _ _ _ _ _ _ _ (firstn k buf) HR1 Ho Hk2) as HR2.
    pose proof (close_post _ _ _ _ _ _ _ _ _ _ (wire t p ++ firstn k buf) HR1 Ho) as HQ2.
    assert (E2 : (match pl1 with
          | Temp => let n := length (q_slots q1) in
              (set_ptr (set_lastq e1 n)
                 (match fst (e_ptr e1) with Temp => (Slot n, snd (e_ptr e1)) | _ => e_ptr e1 end),
               get_buffer i q1 (Some (wire t p ++ firstn k buf)))
          | Slot n => (e1, fill n (wire t p ++ firstn k buf) q1)
          end) = (rebase pl1 (close_n pl1 q1) e1, close_q i pl1 (wire t p ++ firstn k buf) q1))
      by (destruct pl1; reflexivity).
    cbv zeta in E2 |- *. rewrite E2. clear E2.
    set (e2 := rebase pl1 (close_n pl1 q1) e1) in *.
    set (q2 := close_q i pl1 (wire t p ++ firstn k buf) q1) in *.
    set (rest := skipn k buf). set (n := (length rest / 184)%nat).
    assert (Hfl2 : e_fl e2 = a_fl a1 /\ e_left e2 = a_left a1).
    { rewrite <- (r_fl _ _ _ _ _ _ _ _ _ HR1), <- (r_left _ _ _ _ _ _ _ _ _ HR1). unfold e2.
      destruct pl1; split; reflexivity. }
    destruct Hfl2 as [-> ->].
    apply (Rep_set_fl _ _ _ _ _ _ _ _ _ (a_fl a1 + a_left a1 + Z.of_nat (n * 184)) 184) in HR2.
    cbn [a_put a_done a_open a_cc a_wr a_fl a_left a_hdr a_pts a_ok] in HR2.
    set (a2 := A (a_done a1 ++ [a_more p (firstn k buf)]) None (a_cc a1) (a_wr a1)
                 (a_fl a1 + a_left a1 + Z.of_nat (n * 184)) 184 (a_hdr a1) (a_pts a1) (a_ok a1)).
    rewrite <- Hk2 in HR2. fold a2 in HR2.
    destruct (R_full c i t N n HG rest _ _ a2 (ex_intro _ _ (ex_intro _ _ HR2)) eq_refl)
      as (e3 & q3 & E3 & HR3 & HQ3 & _ & _).
    rewrite E3. destruct HR3 as (ls3 & pl3 & HR3).
    assert (Ho3 : a_open (a_full n rest a2) = None) by (apply a_full_open; reflexivity).
    assert (Hk3 : a_ok (a_full n rest a2) = true) by (rewrite a_full_ok; exact Hk2).
    assert (HQ : qpost i N q q3) by (eapply qpost_trans; [exact HQ1|eapply qpost_trans; eassumption]).
    destruct (skipn (n * 184) rest) as [|r0 r] eqn:ER.
    + eexists _, _. split; [reflexivity|]. split; [|exact HQ]. exists ls3, pl3.
      assert (Ec : set_cur e3 None = e3).
      { apply set_cur_none. rewrite (r_cur _ _ _ _ _ _ _ _ _ HR3), Ho3. reflexivity. }
      rewrite Ec. exact HR3.
    + rewrite <- ER.
      destruct (Rep_init _ _ _ _ _ _ _ _ _ false HG HR3 Ho3 (send_ok _ _ _ _ _ _ _ _ _ HR3 Hk3))
        as (e4 & q4 & -> & (pl4 & HR4 & _) & HQ4).
      pose proof (r_cur _ _ _ _ _ _ _ _ _ HR4) as HC4. cbn [a_init a_open option_map] in HC4. rewrite HC4.
      eexists _, _. split; [reflexivity|]. split; [|eapply qpost_trans; eassumption].
      apply (Rep_more _ _ _ _ _ _ _ _ _ _ (skipn (n * 184) rest)) with (2 := eq_refl) in HR4.
      exists ls3, pl4. exact HR4.
Qed.

Lemma R_sub c i t N e q a f :
  good_strm t -> R c i t N e q a -> a_ok a = true ->
  exists e' q', start_sub c i t f e q = (e', q') /\ R c i t N e' q' (a_sub f a) /\ qpost i N q q'.
Proof.
  intros HG (ls & pl & HR) Hk. pose proof (send_ok _ _ _ _ _ _ _ _ _ HR Hk) as Hs.
  unfold start_sub, a_sub. rewrite (r_cur _ _ _ _ _ _ _ _ _ HR).
  destruct (a_open a) as [p|] eqn:Ho; cbn [option_map].
  - rewrite (r_pts _ _ _ _ _ _ _ _ _ HR). destruct (a_pts a).
    + exists e, q. split; [reflexivity|]. split; [exists ls, pl; exact HR|apply qpost_refl].
    + eexists _, _. split; [reflexivity|]. split; [|apply qpost_refl]. exists ls, pl.
      apply (Rep_set_pts _ _ _ _ _ _ _ _ _ (Some (f_pts f))) in HR. rewrite Ho in HR. exact HR.
  - destruct (Rep_init _ _ _ _ _ _ _ _ _ (184 <=? f_size f) HG HR Ho Hs) as (e1 & q1 & -> & (pl1 & HR1 & _) & HQ1).
    eexists _, _. split; [reflexivity|]. split; [|exact HQ1]. exists ls, pl1.
    apply (Rep_set_pts _ _ _ _ _ _ _ _ _ (Some (f_pts f))) in HR1. exact HR1.
Qed.

Definition flush_pre (c : conf) (t : strm) (last : bool) (a : aenc) : Prop :=
  a_ok a = true /\ 0 <= a_wr a /\
  (forall p, a_open a = Some p -> (length (wire t p) < 188)%nat) /\
  (a_stuffs c last a = false -> is_video t && negb (c_align c) = false ->
   forall p, a_open a = Some p ->
     8 + a_wr a <= 65535 /\ Z.of_nat (length (wire t p)) - 4 <= a_wr a).

Lemma a_patch_len t v a p :
  a_open (a_patch v a) = Some p ->
  exists p0, a_open a = Some p0 /\ length (wire t p) = length (wire t p0).
Proof.
  unfold a_patch. destruct (a_open a) as [p0|] eqn:Ho; [|discriminate].
  destruct (is_start p0); simp; intros H; injection H as <-; exists p0; split; auto. apply len_set_v.
Qed.

Lemma a_patch_fields v a :
  a_wr (a_patch v a) = a_wr a /\ a_ok (a_patch v a) = a_ok a /\ a_cc (a_patch v a) = a_cc a.
Proof. unfold a_patch. destruct (a_open a) as [p|]; [destruct (is_start p)|]; auto. Qed.

Lemma a_stuff_open t a : a_open (a_stuff t a) = None.
Proof.
  unfold a_stuff. cbv zeta.
  match goal with |- a_open (match a_open ?x with _ => _ end) = _ => destruct (a_open x) end; reflexivity.
Qed.

Lemma R_flush c i t N e q a last :
  good_strm t -> R c i t N e q a -> flush_pre c t last a ->
  exists e' q', flush_frame c i t last e q = (e', q') /\ R c i t N e' q' (a_flush c t last a) /\ qpost i N q q'.
Proof.
  intros HG (ls & pl & HR) (Hk & Hw & HL & Hv). unfold flush_frame, a_flush.
  assert (Es : c_align c || (match e_cur e with None => true | Some _ => false end)
               || (e_fl e <? e_hdr e) || last = a_stuffs c last a).
  { unfold a_stuffs. rewrite (r_cur _ _ _ _ _ _ _ _ _ HR), (r_fl _ _ _ _ _ _ _ _ _ HR), (r_hdr _ _ _ _ _ _ _ _ _ HR).
    destruct (a_open a); reflexivity. }
  rewrite Es. cbv zeta.
  (* the length *)
  assert (H1 : exists e1 a1 v,
    (if is_video t && negb (c_align c) then (e, 0)
     else match a_stuffs c last a, e_cur e with
      | false, Some (_, b) =>
          (set_wr e (zlen b - 4),
           (if 65535 <? 8 + e_wr e + (if is_video t then 5 else 0) then 0
            else 8 + e_wr e + (if is_video t then 5 else 0)) - (zlen b - 4))
      | _, _ => (set_wr e 0, if 65535 <? 8 + e_wr e + (if is_video t then 5 else 0) then 0
                             else 8 + e_wr e + (if is_video t then 5 else 0))
      end) = (e1, v) /\
    (if is_video t && negb (c_align c) then (a, 0)
     else match a_stuffs c last a, a_open a with
      | false, Some p =>
          (a_put a (a_done a) (a_open a) (Z.of_nat (length (wire t p)) - 4) (a_ok a),
           (if 65535 <? 8 + a_wr a + (if is_video t then 5 else 0) then 0
            else 8 + a_wr a + (if is_video t then 5 else 0)) - (Z.of_nat (length (wire t p)) - 4))
      | _, _ => (a_put a (a_done a) (a_open a) 0 (a_ok a),
                 if 65535 <? 8 + a_wr a + (if is_video t then 5 else 0) then 0
                 else 8 + a_wr a + (if is_video t then 5 else 0))
      end) = (a1, v) /\
    Rep c i t N e1 q a1 ls pl /\ 0 <= v < 65536 /\ a_open a1 = a_open a /\ a_ok a1 = true /\ 0 <= a_wr a1 /\
    (a_stuffs c last a = true -> negb (a_wr a1 =? 0) && negb (is_video t) = false)).
  { destruct (is_video t && negb (c_align c)) eqn:EV.
    - exists e, a, 0. repeat (split; [reflexivity || assumption || lia|]).
      intros _. destruct (is_video t); [apply andb_false_r|discriminate].
    - rewrite (r_wr _ _ _ _ _ _ _ _ _ HR), (r_cur _ _ _ _ _ _ _ _ _ HR).
      set (v := if 65535 <? 8 + a_wr a + (if is_video t then 5 else 0) then 0 else 8 + a_wr a + (if is_video t then 5 else 0)).
      assert (Hv0 : 0 <= v < 65536)
        by (unfold v; destruct (65535 <? 8 + a_wr a + (if is_video t then 5 else 0)) eqn:E; destruct (is_video t); lia).
      destruct (a_stuffs c last a) eqn:ES.
      + exists (set_wr e 0), (a_put a (a_done a) (a_open a) 0 (a_ok a)), v.
        split; [reflexivity|]. split; [reflexivity|]. split; [apply Rep_set_wr; exact HR|].
        split; [exact Hv0|]. split; [reflexivity|]. split; [exact Hk|]. split; [cbn; lia|]. intros _. reflexivity.
      + destruct (a_open a) as [p|] eqn:Ho; cbn [option_map].
        * destruct (Hv eq_refl eq_refl p eq_refl) as [Hv1 Hv2]. unfold zlen.
          exists (set_wr e (Z.of_nat (length (wire t p)) - 4)),
            (a_put a (a_done a) (a_open a) (Z.of_nat (length (wire t p)) - 4) (a_ok a)),
            (v - (Z.of_nat (length (wire t p)) - 4)).
          rewrite <- Ho. split; [reflexivity|]. split; [reflexivity|]. split; [apply Rep_set_wr; exact HR|].
          assert (Hlw : (4 <= length (wire t p))%nat) by (rewrite len_wire; lia).
          assert (HL' := HL p eq_refl).
          assert (Ev : is_video t = false).
          { destruct (is_video t); [|reflexivity]. unfold a_stuffs in ES. destruct (c_align c); discriminate. }
          split.
          { unfold v. destruct (65535 <? 8 + a_wr a + (if is_video t then 5 else 0)) eqn:E; destruct (is_video t); lia. }
          split; [reflexivity|]. split; [exact Hk|]. split; [cbn [a_wr a_put]; lia|]. discriminate.
        * exfalso. unfold a_stuffs in ES. rewrite Ho, orb_true_r in ES. discriminate. }
  destruct H1 as (e1 & a1 & v & -> & -> & HR1 & Hv1 & Ho1 & Hk1 & Hw1 & Hz1).
  destruct (Rep_patch _ _ _ _ _ _ _ _ _ v HR1 Hk1 Hv1) as (e2 & q2 & -> & (ls2 & HR2) & HQ2).
  destruct (a_patch_fields v a1) as (P1 & P2 & P3).
  assert (H3 : exists e3 q3 a3,
     (if a_stuffs c last a then stuff_cur c i t e2 q2 else (e2, q2)) = (e3, q3) /\
     (if a_stuffs c last a then a_stuff t (a_patch v a1) else a_patch v a1) = a3 /\
     R c i t N e3 q3 a3 /\ qpost i N q q3 /\
     (a_stuffs c last a = true -> a_open a3 = None /\ e_cur e3 = None)).
  { destruct (a_stuffs c last a) eqn:ES.
    - destruct (R_stuff c i t N e2 q2 (a_patch v a1)) as (e3 & q3 & E3 & HR3 & HQ3 & _ & Hc3).
      + exists ls2, pl. exact HR2.
      + split; [|split].
        * intros p Hp. destruct (a_patch_len t v a1 p Hp) as (p0 & Hp0 & ->).
          rewrite Ho1 in Hp0. specialize (HL p0 Hp0). lia.
        * rewrite P1, (Hz1 eq_refl). discriminate.
        * rewrite P1. exact Hw1.
      + exists e3, q3, (a_stuff t (a_patch v a1)). split; [exact E3|]. split; [reflexivity|].
        split; [exact HR3|]. split; [eapply qpost_trans; eassumption|]. intros _.
        split; [apply a_stuff_open|exact Hc3].
    - exists e2, q2, (a_patch v a1). split; [reflexivity|]. split; [reflexivity|].
      split; [exists ls2, pl; exact HR2|]. split; [exact HQ2|discriminate]. }
  destruct H3 as (e3 & q3 & a3 & -> & -> & HR3 & HQ3 & Hc3).
  destruct (last && negb (is_other t)) eqn:EL.
  - assert (Hstuff : a_stuffs c last a = true).
    { unfold a_stuffs. destruct last; [apply orb_true_r|discriminate]. }
    destruct (Hc3 Hstuff) as [Ho3 Hcur3].
    assert (Ecc : e_cc e3 = a_cc a3) by (destruct HR3 as (? & ? & HR3); apply (r_cc _ _ _ _ _ _ _ _ _ HR3)).
    rewrite Ecc.
    destruct (R_nulls c i t N (Z.to_nat ((- a_cc a3) mod 16)) HG e3 q3 a3 HR3 Ho3) as (e4 & q4 & -> & HR4 & HQ4 & _ & Hc4).
    eexists _, _. split; [reflexivity|]. split; [|eapply qpost_trans; eassumption].
    assert (Ec : set_cur e4 None = e4).
    { apply set_cur_none. exact (Hc4 Hcur3). }
    rewrite Ec. exact HR4.
  - exists e3, q3. split; [reflexivity|]. split; [exact HR3|exact HQ3].
Qed.
