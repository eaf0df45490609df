(* What the packets of a stream carry is what was pushed into it: data, the end of a
   frame, and a packet that is closed. *)

From Coq Require Import ZArith List Bool Lia ZifyBool.
From Verif Require Import Lists TsModel TsSpec TsProofs TsProofs2 TsProofs3 TsProofs4 TsProofs5 TsProofs6 TsProofs7
  TsProofs8.
Import ListNotations.
Open Scope Z_scope.

Lemma full_view t n : forall buf a h d old,
  V (a_done a) (a_open a) ((h, d) :: old) [] -> K t (a_done a) (a_open a) (a_cc a) -> a_open a = None ->
  (n * 184 <= length buf)%nat ->
  let a' := a_full n buf a in
  V (a_done a') (a_open a') ((h, d ++ firstn (n * 184) buf) :: old) [] /\
  K t (a_done a') (a_open a') (a_cc a') /\ a_open a' = None /\
  a_wr a' = a_wr a /\ a_fl a' = a_fl a /\ a_left a' = a_left a /\ a_hdr a' = a_hdr a /\ a_ok a' = a_ok a.
Proof.
  induction n as [|n IH]; intros buf a h d old HV HK Ho Hn; cbn [a_full].
  - cbv zeta. cbn [Nat.mul firstn]. rewrite app_nil_r. auto 10.
  - cbn [Nat.mul] in Hn.
    assert (Hl : length (firstn 184 buf) = 184%nat) by (rewrite firstn_length; lia).
    rewrite Ho in HV, HK.
    set (p := Pkt (a_cc a) None 0 (firstn 184 buf)).
    assert (HV1 : V (a_done a ++ [p]) None ((h, d ++ firstn 184 buf) :: old) []) by (apply V_push; exact HV).
    assert (HK1 : K t (a_done a ++ [p]) None (a_cc a + 1)).
    { apply K_push; [exact HK|reflexivity|]. rewrite len_wire. cbn [p hlen k_hd k_data k_stuff]. rewrite Hl. reflexivity. }
    edestruct (IH (skipn 184 buf) (A (a_done a ++ [p]) None (a_cc a + 1) (a_wr a) (a_fl a) (a_left a) (a_hdr a) None (a_ok a))
       h (d ++ firstn 184 buf) old) as (H1 & H2); [exact HV1|exact HK1|reflexivity|rewrite skipn_length; lia|].
    cbv zeta. split; [|exact H2].
    replace (d ++ firstn (S n * 184) buf) with ((d ++ firstn 184 buf) ++ firstn (n * 184) (skipn 184 buf)); [exact H1|].
    rewrite <- app_assoc. f_equal. replace (S n * 184)%nat with (184 + n * 184)%nat by lia.
    rewrite <- (firstn_skipn 184 buf) at 3. rewrite firstn_app, Hl.
    replace (184 + n * 184 - 184)%nat with (n * 184)%nat by lia.
    f_equal. symmetry. apply firstn_all2. lia.
Qed.

Lemma open_write t p buf a h d old tail :
  a_open a = Some p -> V (a_done a) (Some p) ((h, d) :: old) tail -> K t (a_done a) (Some p) (a_cc a) ->
  0 <= a_fl a -> 0 < a_left a -> (0 < length buf)%nat ->
  let a' := if (length (wire t p) + length buf <? 188)%nat
      then a_put a (a_done a) (Some (a_more p buf)) (a_wr a) (a_ok a)
      else
        let k := (188 - length (wire t p))%nat in
        let rest := skipn k buf in
        let n := (length rest / 184)%nat in
        let a := a_full n rest
                   (A (a_done a ++ [a_more p (firstn k buf)]) None (a_cc a) (a_wr a)
                      (a_fl a + a_left a + Z.of_nat (n * 184)) 184 (a_hdr a) (a_pts a) (a_ok a)) in
        match skipn (n * 184) rest with
        | [] => a
        | l =>
            A (a_done a) (Some (Pkt (a_cc a) None 0 l)) (a_cc a + 1) (a_wr a) (a_fl a)
              (a_left a) (a_hdr a) None (a_ok a)
        end in
  exists d' tail', V (a_done a') (a_open a') ((h, d') :: old) tail' /\ K t (a_done a') (a_open a') (a_cc a') /\
    d' ++ tail' = d ++ tail ++ buf /\ a_wr a' = a_wr a /\ a_ok a' = a_ok a /\ a_hdr a' = a_hdr a /\
    0 <= a_fl a' /\ 0 < a_left a' /\
    ((a_fl a' = a_fl a /\ a_pts a' = a_pts a /\ a_open a' = Some (a_more p buf) /\
      (is_start p = false -> tail' = tail ++ buf)) \/
     (0 < a_fl a' /\ open_start a' = false /\
      (a_open a' <> None -> a_pts a' = None) /\ zlen tail' < zlen buf)).
Proof.
  intros Ho HV HK Hf Hl Hb. destruct (k_part _ _ _ _ HK p eq_refl) as [Hst Hlen].
  destruct (length (wire t p) + length buf <? 188)%nat eqn:E.
  - apply Nat.ltb_lt in E. cbv zeta. cbn [a_put a_done a_open a_cc a_wr a_ok a_hdr a_fl a_left a_pts].
    assert (HK' : K t (a_done a) (Some (a_more p buf)) (a_cc a)).
    { apply (K_replace t _ p); [exact HK|reflexivity|exact Hst|].
      rewrite len_wire in *. unfold a_more, hlen in *. cbn [k_hd k_data k_stuff]. rewrite app_length. lia. }
    destruct (is_start p) eqn:Es.
    + destruct (V_more_start _ _ _ _ buf Es HV) as (h' & d1 & old' & E1 & E2 & E3 & E4 & HV').
      injection E1 as -> -> ->. exists (d1 ++ buf), []. split; [exact HV'|]. split; [exact HK'|].
      split; [rewrite E2, app_nil_r; reflexivity|]. repeat (split; [reflexivity|]). split; [exact Hf|]. split; [exact Hl|].
      left. repeat (split; [reflexivity|]). discriminate.
    + destruct (V_more_cont _ _ _ _ buf Es HV) as (E1 & HV').
      exists d, (tail ++ buf). split; [exact HV'|]. split; [exact HK'|].
      repeat (split; [reflexivity|]). split; [exact Hf|]. split; [exact Hl|].
      left. repeat (split; [reflexivity|]). reflexivity.
  - apply Nat.ltb_ge in E. cbv zeta.
    set (k := (188 - length (wire t p))%nat). set (rest := skipn k buf). set (n := (length rest / 184)%nat).
    assert (Hk1 : length (firstn k buf) = k) by (rewrite firstn_length; unfold k; lia).
    assert (Hn : (n * 184 <= length rest)%nat) by (unfold n; rewrite Nat.mul_comm; apply Nat.mul_div_le; lia).
    assert (Hr : (length (skipn (n * 184) rest) < 184)%nat).
    { rewrite skipn_length. pose proof (Nat.mod_upper_bound (length rest) 184 ltac:(lia)) as Hm.
      rewrite Nat.mod_eq in Hm by lia. fold n in Hm. lia. }
    set (a1 := A (a_done a ++ [a_more p (firstn k buf)]) None (a_cc a) (a_wr a)
                      (a_fl a + a_left a + Z.of_nat (n * 184)) 184 (a_hdr a) (a_pts a) (a_ok a)).
    assert (HV1 : V (a_done a1) (a_open a1) ((h, d ++ tail ++ firstn k buf) :: old) []).
    { cbn [a1 a_done a_open]. destruct (is_start p) eqn:Es.
      - destruct (V_more_start _ _ _ _ (firstn k buf) Es HV) as (h' & d1 & old' & E1 & E2 & E3 & E4 & HV').
        injection E1 as <- <- <-. apply (V_close _ _ _ _ _ _ (k_stuff p)) in HV'. rewrite app_nil_r in HV'. rewrite E2. exact HV'.
      - destruct (V_more_cont _ _ _ _ (firstn k buf) Es HV) as (E1 & HV').
        apply (V_close _ _ _ _ _ _ (k_stuff p)) in HV'. exact HV'. }
    assert (HK1 : K t (a_done a1) (a_open a1) (a_cc a1)).
    { cbn [a1 a_done a_open a_cc]. apply (K_close t _ p); [exact HK|reflexivity|].
      rewrite len_wire. unfold a_more, hlen. cbn [k_hd k_data k_stuff]. rewrite app_length, Hk1. unfold k.
      pose proof (len_wire t p) as Hlw. unfold hlen in Hlw. lia. }
    destruct (full_view t n rest a1 h _ old HV1 HK1 eq_refl Hn) as (F1 & F2 & F3 & F4 & F5 & F6 & F7 & F8).
    set (a2 := a_full n rest a1) in *.
    assert (Hall : (d ++ tail ++ firstn k buf) ++ firstn (n * 184) rest ++ skipn (n * 184) rest = d ++ tail ++ buf).
    { rewrite firstn_skipn, <- !app_assoc. unfold rest. rewrite firstn_skipn. reflexivity. }
    assert (Hlt : zlen (skipn (n * 184) rest) < zlen buf).
    { unfold zlen. rewrite skipn_length. unfold rest. rewrite skipn_length. unfold k. lia. }
    rewrite F3 in F1, F2.
    assert (Hfl : a_fl a2 = a_fl a + a_left a + Z.of_nat (n * 184)) by (rewrite F5; reflexivity).
    destruct (skipn (n * 184) rest) as [|z0 zs] eqn:Er.
    + exists ((d ++ tail ++ firstn k buf) ++ firstn (n * 184) rest), [].
      rewrite F3. split; [exact F1|]. split; [exact F2|]. split; [rewrite app_nil_r in *; exact Hall|].
      rewrite F4, F6, F7, F8. cbn [a1 a_wr a_ok a_hdr a_left]. repeat (split; [reflexivity|]). split; [lia|]. split; [lia|].
      right. split; [lia|]. split; [unfold open_start; rewrite F3; reflexivity|]. split; [congruence|]. unfold zlen. cbn [length]. lia.
    + rewrite <- Er in *. clear Er.
      set (l := skipn (n * 184) rest) in *.
      exists ((d ++ tail ++ firstn k buf) ++ firstn (n * 184) rest), l.
      cbn [a_done a_open a_cc a_wr a_ok a_hdr a_fl a_left a_pts].
      split.
      { destruct F1 as (G & G1 & G2). exists G. split; [exact G1|]. cbn [view] in *. cbn [k_hd k_data]. congruence. }
      split.
      { apply K_init in F2. apply (K_replace t _ _ (Pkt (a_cc a2) None 0 l) _ F2); [reflexivity|reflexivity|].
        rewrite len_wire. cbn [hlen k_hd k_data k_stuff]. lia. }
      split; [rewrite <- app_assoc; exact Hall|].
      rewrite F4, F6, F7, F8. cbn [a1 a_wr a_ok a_hdr a_left]. repeat (split; [reflexivity|]). split; [lia|]. split; [lia|].
      right. split; [lia|]. split; [reflexivity|]. split; [reflexivity|exact Hlt].
Qed.

Lemma J_write c t p n h a recs tail buf :
  J c t (Inside p n) h a recs tail -> 0 < zlen buf ->
  (is_video t = false -> c_align c = false -> n + zlen buf <= 65343) ->
  exists recs' tail', J c t (Inside false (n + zlen buf)) (h_write h buf) (a_write t buf a) recs' tail'.
Proof.
  intros HJ Hb Hn. pose proof (j_total _ _ _ _ _ _ _ HJ) as HT.
  destruct HJ as [HV HK HD HR HL HM HW0 HW HP].
  destruct HP as (P1 & P2 & P3 & P4 & P5 & P6 & P7 & P8 & P9).
  destruct recs as [|[[[f0 al0] v0] d] old]; [congruence|]. cbn [tl size_of] in *.
  assert (Hlb : (0 < length buf)%nat) by (unfold zlen in Hb; lia).
  (* a packet is open *)
  set (a1 := match a_open a with None => a_init (a_put a (a_done a) (a_open a) (a_wr a + zlen buf) (a_ok a))
             | Some _ => a_put a (a_done a) (a_open a) (a_wr a + zlen buf) (a_ok a) end).
  assert (H1 : exists p1, a_open a1 = Some p1 /\ V (a_done a1) (Some p1) ((f0, al0, v0, d) :: old) tail /\
    K t (a_done a1) (Some p1) (a_cc a1) /\ a_fl a1 = a_fl a /\ a_left a1 = a_left a /\ a_hdr a1 = a_hdr a /\
    a_ok a1 = a_ok a /\ a_wr a1 = a_wr a + zlen buf /\
    (is_start p1 = true -> open_start a = true) /\
    (is_start p1 = false -> (a_open a = Some p1 /\ a_pts a1 = a_pts a) \/ (a_open a = None /\ a_pts a1 = None /\ tail = []))).
  { unfold a1. destruct (a_open a) as [p1|] eqn:Ho.
    - exists p1. cbn [a_put a_open a_done a_cc a_fl a_left a_hdr a_ok a_wr a_pts]. split; [reflexivity|]. split; [exact HV|].
      split; [exact HK|]. repeat (split; [reflexivity|]). split; [unfold open_start; rewrite Ho; auto|auto].
    - destruct (V_init _ _ _ (a_cc a) HV) as [HV' Ht].
      exists (Pkt (a_cc a) None 0 []). cbn [a_init a_put a_open a_done a_cc a_fl a_left a_hdr a_ok a_wr a_pts].
      split; [reflexivity|]. split; [rewrite Ht; exact HV'|].
      split; [apply K_init; exact HK|]. repeat (split; [reflexivity|]). split; [cbn; discriminate|auto]. }
  destruct H1 as (p1 & Ho1 & HV1 & HK1 & Hf1 & Hl1 & Hh1 & Hk1 & Hw1 & Hs1 & Hc1).
  assert (Ea : a_write t buf a = match a_open a1 with
     | None => a1 | Some p => if (length (wire t p) + length buf <? 188)%nat
      then a_put a1 (a_done a1) (Some (a_more p buf)) (a_wr a1) (a_ok a1)
      else
        let k := (188 - length (wire t p))%nat in
        let rest := skipn k buf in
        let n := (length rest / 184)%nat in
        let a := a_full n rest
                   (A (a_done a1 ++ [a_more p (firstn k buf)]) None (a_cc a1) (a_wr a1)
                      (a_fl a1 + a_left a1 + Z.of_nat (n * 184)) 184 (a_hdr a1) (a_pts a1) (a_ok a1)) in
        match skipn (n * 184) rest with
        | [] => a
        | l =>
            A (a_done a) (Some (Pkt (a_cc a) None 0 l)) (a_cc a + 1) (a_wr a) (a_fl a)
              (a_left a) (a_hdr a) None (a_ok a)
        end end).
  { unfold a1, a_write. destruct (a_open a) eqn:Ho; cbn [a_put a_open]; rewrite ?Ho; reflexivity. }
  rewrite Ho1 in Ea. rewrite Ea.
  edestruct (open_write t p1 buf a1 (f0, al0, v0) d old tail) as (d' & tail' & W1 & W2 & W3 & W4 & W5 & W6 & W7 & W8 & W9);
    [exact Ho1|exact HV1|exact HK1|rewrite Hf1; exact P4|rewrite Hl1; exact P5|exact Hlb|].
  match type of W1 with V (a_done ?x) _ _ _ => set (a2 := x) in * end.
  clearbody a2. clearbody a1. clear Ea.
  exists ((f0, al0, v0, d') :: old), tail'.
  assert (HZ : zlen d' + zlen tail' = zlen d + zlen tail + zlen buf).
  { pose proof (f_equal zlen W3) as E. rewrite !zlen_app in E. clear - E. lia. }
  constructor.
  - exact W1.
  - exact W2.
  - cbn [map snd rev h_write h_data] in *. rewrite <- HD, concat_app. rewrite concat_app in *. cbn [concat] in *.
    rewrite !app_nil_r in *. rewrite <- !app_assoc, W3. reflexivity.
  - exact HR.
  - exact HL.
  - cbn [h_write h_data h_marks pend] in *. rewrite zlen_app. eapply marks_up; [|exact HM]. cbn [pend]. clear - Hb. destruct p; lia.
  - rewrite W4, Hw1. clear - HW0 Hb. lia.
  - intros Ev. cbn [size_of]. rewrite W4, Hw1, (HW Ev). clear - HZ. lia.
  - cbn [ph_ok]. split; [discriminate|]. split; [congruence|].
    split.
    { intros Hs. destruct W9 as [(E1 & E2 & E3 & E4)|(E1 & E2 & E3 & E4)]; [|congruence].
      rewrite E1, Hf1. apply P3. apply Hs1. unfold open_start in Hs. rewrite E3 in Hs. exact Hs. }
    split; [exact W7|]. split; [exact W8|]. split; [rewrite W6, Hh1; exact P6|]. split; [discriminate|].
    split.
    { intros q Hq Hqs Hqf. cbn [h_write h_data h_marks]. rewrite zlen_app.
      destruct W9 as [(E1 & E2 & E3 & E4)|(E1 & E2 & E3 & E4)].
      - rewrite E3 in Hq. injection Hq as <-. assert (Hs : is_start p1 = false) by exact Hqs.
        rewrite (E4 Hs), zlen_app, E2. replace (zlen (h_data h) + zlen buf - (zlen tail + zlen buf)) with (zlen (h_data h) - zlen tail) by (clear; lia).
        destruct (Hc1 Hs) as [[G1 G2]|(G1 & G2 & G3)].
        + rewrite G2. apply (P8 p1 G1 Hs). rewrite <- Hf1, <- E1. exact Hqf.
        + rewrite G2, G3. symmetry. apply first_none. change (zlen []) with 0. rewrite Z.sub_0_r.
          destruct p; [exfalso; rewrite E1, Hf1, (P7 eq_refl G1) in Hqf; discriminate Hqf|].
          cbn [pend] in HM. rewrite Z.add_0_r in HM. exact HM.
      - rewrite E3 by congruence. symmetry. apply first_none. eapply marks_up; [|exact HM]. clear - E4. destruct p; cbn [pend]; lia. }
    intros Ev Eal. specialize (P9 Ev Eal). specialize (Hn Ev Eal). rewrite W4, Hw1. clear - P9 Hn. lia.
Qed.

(* ---------- a packet is closed ---------- *)

Definition a_close (t : strm) (a : aenc) : aenc :=
  match a_open a with
  | None => a_put a (a_done a) None (a_wr a) false
  | Some p =>
      a_put a (a_done a ++ [Pkt (k_cc p) (k_hd p) (188 - length (wire t p)) (k_data p)])
        None (a_wr a) false
  end.

Lemma close_view t a h d old tail :
  V (a_done a) (a_open a) ((h, d) :: old) tail -> K t (a_done a) (a_open a) (a_cc a) ->
  V (a_done (a_close t a)) None ((h, d ++ tail) :: old) [] /\ K t (a_done (a_close t a)) None (a_cc a) /\
  a_open (a_close t a) = None /\ a_cc (a_close t a) = a_cc a /\ a_wr (a_close t a) = a_wr a.
Proof.
  intros HV HK. unfold a_close. destruct (a_open a) as [p|] eqn:Ho; cbn [a_put a_done a_open a_cc a_wr].
  - split; [apply V_close; exact HV|]. split; [|auto]. destruct (k_part _ _ _ _ HK p eq_refl) as [Hst Hlen].
    apply (K_close t _ p); [exact HK|reflexivity|]. rewrite len_wire. unfold hlen. cbn [k_hd k_data k_stuff].
    pose proof (len_wire t p) as Hlw. unfold hlen in Hlw. lia.
  - assert (tail = []) as -> by (destruct HV as (G & G1 & G2); cbn [view] in G2; congruence).
    rewrite app_nil_r. auto.
Qed.

Lemma stuff_simple t a : a_wr a = 0 \/ is_video t = true -> a_stuff t a = a_close t a.
Proof.
  intros H. unfold a_stuff. destruct (negb (a_wr a =? 0) && negb (is_video t)) eqn:E; [|reflexivity].
  destruct (is_video t); [cbn in E; lia|]. destruct H as [H|H]; [rewrite H in E; discriminate|discriminate].
Qed.

Lemma a_patch_rest v a : a_cc (a_patch v a) = a_cc a /\ a_wr (a_patch v a) = a_wr a /\ a_fl (a_patch v a) = a_fl a /\
  a_ok (a_patch v a) = a_ok a /\ a_pts (a_patch v a) = a_pts a.
Proof. unfold a_patch. destruct (a_open a) as [p|]; [destruct (is_start p)|]; cbn; auto. Qed.

Lemma a_patch_open v a p : a_open (a_patch v a) = Some p -> is_start p = false -> a_open a = Some p.
Proof.
  unfold a_patch. destruct (a_open a) as [q|] eqn:E; [destruct (is_start q) eqn:Es|]; cbn [a_put a_open]; try congruence.
  intros H. injection H as <-. unfold is_start, set_v in *. destruct (k_hd q) as [[[? ?] ?]|] eqn:E2; cbn [k_hd]; [discriminate|].
  congruence.
Qed.

Lemma J_stuff c t ph h a recs tail :
  J c t ph h a recs tail -> is_in ph = false -> exists recs', J c t ph h (a_stuff t a) recs' [].
Proof.
  intros HJ Hph. pose proof (j_total _ _ _ _ _ _ _ HJ) as HT.
  destruct HJ as [HV HK HD HR HL HM HW0 HW HP].
  assert (HL' : Forall (vok c t) recs) by (destruct ph; [exact HL|discriminate|exact HL|exact HL]).
  assert (HW' : is_video t && negb (c_align c) = false -> a_wr a = zlen tail).
  { intros E. rewrite (HW E). destruct ph; [|discriminate| |]; reflexivity. }
  destruct (a_open a) as [p|] eqn:Ho.
  - assert (ph = Between) as ->.
    { destruct ph; [destruct HP; congruence|discriminate|reflexivity|destruct HP; congruence]. }
    destruct HP as (Q1 & HP). destruct (HP p Ho) as (P1 & P2 & P3 & P4 & P5).
    destruct recs as [|[[[f0 al0] v0] d] old]; [congruence|]. cbn [size_of] in *.
    inversion HL' as [|x l HL1 HL2]. subst x l.
    (* the length is right at the end *)
    assert (H1 : exists a1 v1, a_stuff t a = a_close t a1 /\ v1 = pes_len c t (zlen (d ++ tail)) /\
       V (a_done a1) (a_open a1) ((f0, al0, v1, d) :: old) tail /\ K t (a_done a1) (a_open a1) (a_cc a1) /\
       0 <= a_wr a1 /\ (is_video t && negb (c_align c) = false -> a_wr a1 = 0)).
    { destruct (negb (a_wr a =? 0) && negb (is_video t)) eqn:E.
      - assert (Ev : is_video t = false) by (destruct (is_video t); [cbn in E; lia|reflexivity]).
        pose proof HV as HV0. rewrite <- Ho in HV, HK.
        set (v := a_size a + a_wr a). set (v' := if 65535 <? v then 0 else v).
        destruct (V_patch a f0 al0 v0 d old tail v' HV) as [V1 V2]. pose proof (K_patch t v' a HK) as K1.
        exists (a_put (a_patch v' a) (a_done (a_patch v' a)) (a_open (a_patch v' a)) 0 (a_ok (a_patch v' a))), v'.
        split; [unfold a_stuff; rewrite E; reflexivity|]. split; [|split; [exact V1|split; [exact K1|split; [cbn; lia|reflexivity]]]].
        unfold v', v. rewrite V2, HW' by (rewrite Ev; reflexivity). unfold vok in HL1. cbn [fst snd] in HL1. rewrite HL1.
        specialize (P5 Ev). rewrite zlen_app. unfold pes_len. rewrite Ev. cbn [andb].
        assert (0 <= zlen tail) by (unfold zlen; lia).
        destruct (65535 <? 8 + zlen d) eqn:E1; [lia|].
        destruct (65535 <? 8 + zlen d + zlen tail) eqn:E2; [lia|].
        destruct (65535 <? 8 + (zlen d + zlen tail)) eqn:E3; [lia|]. lia.
      - exists a, v0. split; [unfold a_stuff; rewrite E; reflexivity|]. rewrite Ho.
        split; [|split; [exact HV|split; [exact HK|split; [exact HW0|]]]].
        + unfold vok in HL1. cbn [fst snd] in HL1. rewrite HL1. rewrite zlen_app.
          destruct (is_video t) eqn:Ev.
          * unfold pes_len. rewrite Ev, P3. reflexivity.
          * rewrite <- HW' by reflexivity. cbn in E. replace (a_wr a) with 0 by lia. rewrite Z.add_0_r. reflexivity.
        + intros Ev. destruct (is_video t) eqn:Ev2.
          * rewrite P3 in Ev. discriminate.
          * cbn in E. lia. }
    destruct H1 as (a1 & v1 & -> & Hv1 & V1 & K1 & W1 & W2).
    destruct (close_view t a1 _ _ _ _ V1 K1) as (C1 & C2 & C3 & C4 & C5).
    exists ((f0, al0, v1, d ++ tail) :: old). constructor; rewrite ?C3, ?C4, ?C5.
    + exact C1.
    + exact C2.
    + cbn [map snd rev] in *. rewrite concat_app in *. cbn [concat] in *. rewrite !app_nil_r in *.
      rewrite app_assoc. exact HD.
    + exact HR.
    + constructor; [exact Hv1|exact HL2].
    + exact HM.
    + exact W1.
    + exact W2.
    + cbn [ph_ok]. split; [discriminate|]. rewrite C3. discriminate.
  - assert (tail = []) as -> by (destruct HV as (G & G1 & G2); cbn [view] in G2; congruence).
    change (zlen []) with 0 in HW'.
    assert (a_wr a = 0 \/ is_video t = true).
    { destruct (is_video t); [auto|]. left. apply HW'. reflexivity. }
    rewrite stuff_simple by assumption. unfold a_close. rewrite Ho. exists recs.
    constructor; cbn [a_put a_done a_open a_cc a_wr a_ok].
    + exact HV.
    + exact HK.
    + exact HD.
    + exact HR.
    + exact HL.
    + exact HM.
    + exact HW0.
    + exact HW.
    + destruct ph; cbn [ph_ok a_open a_cc] in *.
      * split; [reflexivity|apply HP].
      * discriminate.
      * split; [apply HP|discriminate].
      * split; [reflexivity|]. apply HP.
Qed.

Lemma nulls_view t n : forall a h d old,
  V (a_done a) (a_open a) ((h, d) :: old) [] -> K t (a_done a) (a_open a) (a_cc a) -> a_open a = None ->
  let a' := a_nulls n a in
  V (a_done a') (a_open a') ((h, d) :: old) [] /\ K t (a_done a') (a_open a') (a_cc a') /\ a_open a' = None /\
  a_wr a' = a_wr a /\ a_cc a' = a_cc a + Z.of_nat n.
Proof.
  induction n as [|n IH]; intros a h d old HV HK Ho; cbn [a_nulls].
  - cbv zeta. rewrite Z.add_0_r. auto.
  - rewrite Ho in HV, HK. set (p := Pkt (a_cc a) None 184 []).
    assert (HV1 : V (a_done a ++ [p]) None ((h, d) :: old) []).
    { apply (V_push _ _ _ _ (a_cc a) 184%nat []) in HV. rewrite app_nil_r in HV. exact HV. }
    assert (HK1 : K t (a_done a ++ [p]) None (a_cc a + 1)).
    { apply K_push; [exact HK|reflexivity|]. rewrite len_wire. reflexivity. }
    edestruct (IH (A (a_done a ++ [p]) None (a_cc a + 1) (a_wr a) (a_fl a) (a_left a) (a_hdr a) None (a_ok a)))
      as (H1 & H2 & H3 & H4 & H5); [exact HV1|exact HK1|reflexivity|].
    cbv zeta. split; [exact H1|]. split; [exact H2|]. split; [exact H3|]. split; [exact H4|].
    rewrite H5. cbn [a_cc]. lia.
Qed.

Lemma flush_pre_ok c t n h a recs tail last :
  J c t (Inside false n) h a recs tail -> (last = false -> c_align c = false -> is_other t = false) -> flush_pre c t last a.
Proof.
  intros HJ Hlo. destruct HJ as [HV HK HD HR HL HM HW0 HW HP].
  destruct HP as (P1 & P2 & P3 & P4 & P5 & P6 & P7 & P8 & P9).
  split; [exact P2|]. split; [exact HW0|].
  split; [intros p Hp; exact (proj2 (k_part _ _ _ _ HK p Hp))|].
  intros Hs Hv p Hp. unfold a_stuffs in Hs.
  assert (Ea : c_align c = false) by (destruct (c_align c); [discriminate|reflexivity]).
  rewrite Ea, Hp in Hs. cbn [orb] in Hs.
  assert (Ev : is_video t = false) by (destruct (is_video t); [rewrite Ea in Hv; discriminate|reflexivity]).
  assert (El : last = false) by (destruct last; [destruct (a_fl a <? a_hdr a); discriminate|reflexivity]).
  specialize (P9 Ev Ea). specialize (P6 Ea (Hlo El Ea)).
  assert (Hfl : 1 <= a_fl a) by (rewrite El in Hs; lia).
  assert (Hps : is_start p = false).
  { destruct (is_start p) eqn:E; [|reflexivity]. unfold open_start in P3. rewrite Hp in P3. specialize (P3 E). lia. }
  split; [lia|]. destruct HV as (G & G1 & G2). rewrite Hp in G2. unfold view in G2. unfold is_start in Hps.
  destruct (k_hd p) eqn:Eh; [discriminate|]. injection G2 as -> <-.
  rewrite (HW Hv). rewrite len_wire. unfold hlen. rewrite Eh. rewrite (proj1 (k_part _ _ _ _ HK p Hp)).
  unfold size_of. destruct recs as [|[? ?] ?]; unfold zlen; lia.
Qed.

Lemma J_flush c t n h a recs tail (last : bool) :
  J c t (Inside false n) h a recs tail -> (last = false -> c_align c = false -> is_other t = false) ->
  exists recs' tail', J c t (if last then Done else Between) h (a_flush c t last a) recs' tail'.
Proof.
  intros HJ Hlo. pose proof (flush_pre_ok _ _ _ _ _ _ _ last HJ Hlo) as (_ & _ & HF1 & HF2).
  pose proof (j_total _ _ _ _ _ _ _ HJ) as HT.
  destruct HJ as [HV HK HD HR HL HM HW0 HW HP].
  destruct HP as (P1 & P2 & P3 & P4 & P5 & P6 & P7 & P8 & P9).
  destruct recs as [|[[[f0 al0] v0] d] old]; [congruence|]. cbn [tl size_of] in *.
  assert (Hz : 0 <= zlen tail /\ 0 <= zlen d) by (unfold zlen; lia).
  cbn [pend] in HM.
  unfold a_flush. set (s := a_stuffs c last a) in *.
  (* the length of the PES packet *)
  match goal with |- context [if is_video t && negb (c_align c) then (a, 0) else ?x] =>
    set (r := if is_video t && negb (c_align c) then (a, 0) else x) end.
  assert (H1 : exists a1 v, r = (a1, v) /\ a_done a1 = a_done a /\ a_open a1 = a_open a /\ a_cc a1 = a_cc a /\ a_ok a1 = a_ok a /\
    a_pts a1 = a_pts a /\ 0 <= a_wr a1 /\ (s = true -> v = pes_len c t (zlen d + zlen tail) /\ (a_wr a1 = 0 \/ is_video t && negb (c_align c) = true)) /\
    (s = false -> v = pes_len c t (zlen d) /\ (is_video t && negb (c_align c) = false -> a_wr a1 = zlen tail /\ 8 + zlen d + zlen tail <= 65535))).
  { unfold r. destruct (is_video t && negb (c_align c)) eqn:Ev.
    - exists a, 0. repeat (split; [reflexivity|]). split; [exact HW0|]. unfold pes_len. rewrite Ev.
      split; intros _; split; auto. discriminate.
    - specialize (HW eq_refl). destruct s eqn:Es.
      + exists (a_put a (a_done a) (a_open a) 0 (a_ok a)). eexists. split; [reflexivity|].
        do 6 (split; [reflexivity|]). split; [|discriminate]. intros _. split; [|left; reflexivity].
        unfold pes_len. rewrite Ev, HW.
        destruct (is_video t); [replace (8 + (zlen d + zlen tail) + 5) with (13 + (zlen d + zlen tail)) by lia; reflexivity|].
        rewrite Z.add_0_r. reflexivity.
      + destruct (a_open a) as [p|] eqn:Ho.
        * destruct (HF2 eq_refl eq_refl p eq_refl) as [B1 B2].
          assert (Ea : c_align c = false) by (destruct (c_align c) eqn:E; [unfold s, a_stuffs in Es; rewrite E in Es; discriminate|reflexivity]).
          assert (Ev2 : is_video t = false) by (destruct (is_video t); [rewrite Ea in Ev; discriminate|reflexivity]).
          assert (Hps : is_start p = false).
          { destruct (is_start p) eqn:E; [|reflexivity]. unfold open_start in P3. rewrite Ho in P3. specialize (P3 E). specialize (P6 Ea).
            unfold s, a_stuffs in Es. rewrite Ea, Ho in Es. cbn [orb] in Es. destruct last; [destruct (a_fl a <? a_hdr a); discriminate|lia]. }
          assert (Hpt : zlen tail = Z.of_nat (length (wire t p)) - 4).
          { destruct HV as (G & G1 & G2). unfold view in G2. unfold is_start in Hps.
            destruct (k_hd p) eqn:Eh; [discriminate|]. injection G2 as -> <-.
            rewrite len_wire. unfold hlen. rewrite Eh. rewrite (proj1 (k_part _ _ _ _ HK p eq_refl)). unfold zlen. lia. }
          rewrite <- Hpt in *. eexists _, _. split; [reflexivity|].
          split; [reflexivity|]. split; [cbn [a_put a_open]; reflexivity|]. repeat (split; [reflexivity|]).
          split; [cbn; lia|]. split; [discriminate|]. intros _. rewrite Ev2, HW. split; [|intros _; split; [reflexivity|lia]].
          unfold pes_len. rewrite Ev2. cbn [andb].
          destruct (65535 <? 8 + (zlen d + zlen tail) + 0) eqn:E1; [lia|].
          destruct (65535 <? 8 + zlen d) eqn:E2; lia.
        * exfalso. unfold s, a_stuffs in Es. rewrite Ho in Es. destruct (c_align c); discriminate. }
  destruct H1 as (a1 & v & -> & D1 & D2 & D3 & D4 & D5 & D6 & D7 & D8).
  assert (HV1 : V (a_done a1) (a_open a1) ((f0, al0, v0, d) :: old) tail) by (rewrite D1, D2; exact HV).
  assert (HK1 : K t (a_done a1) (a_open a1) (a_cc a1)) by (rewrite D1, D2, D3; exact HK).
  destruct (V_patch a1 f0 al0 v0 d old tail v HV1) as [HV2 _]. pose proof (K_patch t v a1 HK1) as HK2.
  destruct (a_patch_rest v a1) as (A1 & A2 & A3 & A4 & A5).
  pose proof (a_patch_open v a1) as A6.
  set (a2 := a_patch v a1) in *.
  (* the packet *)
  assert (HMB : Forall (fun m => fst m < zlen (h_data h) + 0) (h_marks h)) by exact HM.
  destruct s eqn:Es.
  - destruct (D7 eq_refl) as [Hv Hw].
    assert (Hss : a_stuff t a2 = a_close t a2).
    { apply stuff_simple. rewrite A2. destruct Hw as [Hw|Hw]; [auto|]. right. destruct (is_video t); [reflexivity|discriminate]. }
    rewrite Hss. destruct (close_view t a2 _ _ _ _ HV2 HK2) as (C1 & C2 & C3 & C4 & C5).
    set (a3 := a_close t a2) in *.
    assert (HX : forall a4, V (a_done a4) (a_open a4) ((f0, al0, v, d ++ tail) :: old) [] -> K t (a_done a4) (a_open a4) (a_cc a4) ->
       a_open a4 = None -> a_wr a4 = a_wr a3 -> (last = true -> is_other t = false -> a_cc a4 mod 16 = 0) ->
       J c t (if last then Done else Between) h a4 ((f0, al0, v, d ++ tail) :: old) []).
    { intros a4 X1 X2 X3 X4 X5. constructor.
      - exact X1.
      - exact X2.
      - cbn [map snd rev] in *. rewrite concat_app in *. cbn [concat] in *. rewrite !app_nil_r in *. rewrite app_assoc. exact HD.
      - exact HR.
      - assert (HLL : Forall (vok c t) ((f0, al0, v, d ++ tail) :: old)).
        { constructor; [|exact HL]. unfold vok. cbn [fst snd]. rewrite zlen_app. exact Hv. }
        destruct last; exact HLL.
      - destruct last; exact HMB.
      - rewrite X4, C5, A2. exact D6.
      - intros E. rewrite X4, C5, A2. destruct Hw as [Hw|Hw]; [|congruence]. destruct last; exact Hw.
      - destruct last; cbn [ph_ok].
        + split; [exact X3|]. split; [discriminate|]. auto.
        + split; [discriminate|]. rewrite X3. discriminate. }
    exists ((f0, al0, v, d ++ tail) :: old), [].
    destruct (last && negb (is_other t)) eqn:El.
    + rewrite <- C3 in C1, C2. rewrite <- C4 in C2.
      destruct (nulls_view t (Z.to_nat ((- a_cc a3) mod 16)) a3 _ _ _ C1 C2 C3) as (N1 & N2 & N3 & N4 & N5).
      apply HX; [exact N1|exact N2|exact N3|exact N4|].
      intros _ _. rewrite N5. rewrite Z2Nat.id by (apply Z.mod_pos_bound; reflexivity).
      rewrite Z.add_mod_idemp_r by discriminate. rewrite Z.add_opp_diag_r. reflexivity.
    + apply HX.
      * rewrite C3. exact C1.
      * rewrite C3, C4. exact C2.
      * exact C3.
      * reflexivity.
      * intros -> Hoth. rewrite Hoth in El. discriminate.
  - destruct (D8 eq_refl) as [Hv Hw].
    assert (Ea : c_align c = false) by (destruct (c_align c) eqn:E; [unfold s, a_stuffs in Es; rewrite E in Es; discriminate|reflexivity]).
    assert (El : last = false) by (destruct last; [unfold s, a_stuffs in Es; rewrite orb_true_r in Es; discriminate|reflexivity]).
    rewrite El. cbn [andb]. exists ((f0, al0, v, d) :: old), tail. constructor.
    + exact HV2.
    + exact HK2.
    + exact HD.
    + exact HR.
    + constructor; [exact Hv|exact HL].
    + exact HMB.
    + rewrite A2. exact D6.
    + intros E. rewrite A2. destruct (Hw E) as [W1 W2]. rewrite W1. reflexivity.
    + cbn [ph_ok]. split; [discriminate|]. intros p Hp.
      assert (Hop : exists p0, a_open a = Some p0 /\ is_start p0 = is_start p /\ (is_start p = false -> p0 = p)).
      { destruct (is_start p) eqn:E.
        - unfold a2, a_patch in Hp. rewrite D2 in Hp. destruct (a_open a) as [p0|] eqn:Ho; [|discriminate].
          destruct (is_start p0) eqn:E0; cbn [a_put a_open] in Hp; injection Hp as <-; [|congruence].
          exists p0. split; [reflexivity|]. split; [exact E0|discriminate].
        - exists p. rewrite <- D2. split; [apply A6; assumption|]. auto. }
      destruct Hop as (p0 & Hp0 & Hps0 & Hpp).
      assert (Hfl : 1 <= a_fl a).
      { unfold s, a_stuffs in Es. rewrite Ea, Hp0 in Es. cbn [orb] in Es. specialize (P6 Ea (Hlo El Ea)). rewrite El in Es. clear - Es P6. lia. }
      assert (Hps : is_start p = false).
      { destruct (is_start p) eqn:E; [|reflexivity]. unfold open_start in P3. rewrite Hp0 in P3. specialize (P3 Hps0). clear - P3 Hfl. lia. }
      split; [exact Hps|]. split; [congruence|]. split; [exact Ea|]. split.
      * rewrite A5, D5. apply (P8 p0 Hp0); [congruence|clear - Hfl; lia].
      * cbn [size_of]. intros Ev. apply Hw. rewrite Ev. reflexivity.
Qed.
