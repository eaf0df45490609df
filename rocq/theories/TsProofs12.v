(* The end of a segment: what a player reads, how much it is, and what was sent
   before. *)

From Coq Require Import ZArith List Bool Lia ZifyBool.
From Verif Require Import Lists TsModel TsSpec TsProofs TsProofs2 TsProofs3 TsProofs4 TsProofs5 TsProofs6 TsProofs7
  TsProofs8 TsProofs9 TsProofs10 TsProofs11.
Import ListNotations.
Open Scope Z_scope.

(* ---------- the packets in the queue ---------- *)

Lemma slots_read (ts : list strm) : NoDup (map t_pid ts) -> Forall good_strm ts ->
  forall (l : list slot) k (D : nat -> list pkt),
  (forall j x, In (j, x) l -> (j < length ts)%nat) ->
  (forall i t, nth_error ts i = Some t ->
     map snd (own_from k i l) = map (fun p => Some (wire t p)) (D i) /\
     Forall (fun p => length (wire t p) = 188%nat) (D i)) ->
  exists out ps, contents l = Some out /\ parse_all out = Some ps /\ length out = length l /\
    Forall (fun p => In (x_pid p) (map t_pid ts)) ps /\
    (forall i t, nth_error ts i = Some t -> filter (fun p => x_pid p =? t_pid t) ps = map (pkt_tsp t) (D i)).
Proof.
  intros HN HS. induction l as [|[j x] l IH]; intros k D Ho HD.
  - exists [], []. repeat (split; [reflexivity|]). split; [constructor|]. intros i t Ht.
    destruct (HD i t Ht) as [H _]. cbn in H. destruct (D i); [reflexivity|discriminate].
  - assert (Hj : (j < length ts)%nat) by (apply (Ho j x); left; reflexivity).
    destruct (nth_error ts j) as [t|] eqn:Ht; [|apply nth_error_None in Ht; lia].
    destruct (HD j t Ht) as [H1 H2]. cbn [own_from] in H1. rewrite Nat.eqb_refl in H1. cbn [map snd] in H1.
    destruct (D j) as [|p D'] eqn:ED; [discriminate|]. cbn [map] in H1. injection H1 as -> H1.
    inversion H2 as [|p0 l0 H3 H4]. subst p0 l0.
    destruct (IH (S k) (fun i => if (i =? j)%nat then D' else D i)) as (out & ps & E1 & E2 & E3 & E4 & E5).
    + intros j' x' Hin. apply (Ho j' x'). right. exact Hin.
    + intros i u Hu. destruct (i =? j)%nat eqn:E.
      * apply Nat.eqb_eq in E. subst i. assert (u = t) by congruence. subst u. auto.
      * destruct (HD i u Hu) as [F1 F2]. cbn [own_from] in F1. rewrite (Nat.eqb_sym j i), E in F1. auto.
    + assert (HGS : good_strm t) by (rewrite Forall_forall in HS; apply HS; eapply nth_error_In; exact Ht).
      exists (wire t p :: out), (pkt_tsp t p :: ps). cbn [contents parse_all]. rewrite E1, E2, (parse_wire t p HGS H3).
      split; [reflexivity|]. split; [reflexivity|]. split; [cbn [length]; lia|].
      split; [constructor; [change (In (t_pid t) (map t_pid ts)); apply in_map; eapply nth_error_In; exact Ht|exact E4]|].
      intros i u Hu. cbn [filter]. specialize (E5 i u Hu). change (x_pid (pkt_tsp t p)) with (t_pid t).
      destruct (i =? j)%nat eqn:E.
      * apply Nat.eqb_eq in E. subst i. assert (u = t) by congruence. subst u. rewrite Z.eqb_refl, E5, ED. reflexivity.
      * apply Nat.eqb_neq in E. destruct (t_pid t =? t_pid u) eqn:Ep; [|exact E5]. exfalso. apply E.
        apply Z.eqb_eq in Ep. rewrite NoDup_nth_error in HN. apply HN.
        -- rewrite map_length. apply nth_error_Some. congruence.
        -- rewrite !nth_error_map, Hu, Ht. cbn. congruence.
Qed.

(* ---------- PES packets ---------- *)

Definition unit_of (t : strm) (r : rec) : option Z * list Z :=
  let '(h, d) := r in
  ((let '(f, _, _) := h in if t_pcr t then Some (clock33 (f_dts f + 4590)) else None), pes_bytes t h ++ d).

Definition pes_of (t : strm) (r : rec) : option Z * pes :=
  let '(h, d) := r in
  ((let '(f, _, _) := h in if t_pcr t then Some (clock33 (f_dts f + 4590)) else None), hd_pes t h d).

Lemma split_groups t l : forall recs rest d0 us0,
  groups l = Some recs -> split rest = (d0, us0) ->
  split (map (pkt_tsp t) l ++ rest) =
  match recs with
  | [] => (d0, us0)
  | (h, d) :: old => ([], rev (map (unit_of t) old) ++ unit_of t (h, d ++ d0) :: us0)
  end.
Proof.
  induction l as [|p l IH] using rev_ind; intros recs rest d0 us0 HG HR.
  - cbn in HG. injection HG as <-. exact HR.
  - rewrite groups_app in HG. destruct (groups l) as [G0|] eqn:E; [|discriminate]. cbn [gadd] in HG.
    rewrite map_app, <- app_assoc. cbn [map app].
    destruct (k_hd p) as [h|] eqn:Eh.
    + injection HG as <-.
      rewrite (IH G0 (pkt_tsp t p :: rest) [] (unit_of t (h, k_data p ++ d0) :: us0) eq_refl).
      * destruct G0 as [|[h1 d1] old]; [reflexivity|]. cbn [map rev]. rewrite app_nil_r, <- app_assoc. reflexivity.
      * cbn [split]. rewrite HR. unfold pkt_tsp. rewrite Eh. cbn [x_start x_pcr x_pay].
        destruct h as [[f al] v]. cbn [unit_of]. rewrite app_assoc. reflexivity.
    + destruct G0 as [|[h1 d1] old]; [discriminate|]. injection HG as <-.
      rewrite (IH _ (pkt_tsp t p :: rest) (k_data p ++ d0) us0 eq_refl).
      * rewrite app_assoc. reflexivity.
      * cbn [split]. rewrite HR. unfold pkt_tsp. rewrite Eh. reflexivity.
Qed.

Lemma parse_units_app l1 : forall l2 r1 r2, parse_units l1 = Some r1 -> parse_units l2 = Some r2 ->
  parse_units (l1 ++ l2) = Some (r1 ++ r2).
Proof.
  induction l1 as [|[c b] l1 IH]; intros l2 r1 r2 H1 H2; cbn [parse_units app] in *.
  - injection H1 as <-. exact H2.
  - destruct (parse_pes b); [|discriminate]. destruct (parse_units l1) as [r|] eqn:E; [|discriminate].
    injection H1 as <-. rewrite (IH l2 r r2 eq_refl H2). reflexivity.
Qed.

Lemma units_ok c t : good_strm t -> forall recs, Forall (vok c t) recs ->
  parse_units (rev (map (unit_of t) recs)) = Some (rev (map (pes_of t) recs)).
Proof.
  intros HGS. induction 1 as [|[[[f al] v] d] l H1 H2 IH]; [reflexivity|]. cbn [map rev].
  apply parse_units_app; [exact IH|]. cbn [unit_of parse_units].
  rewrite parse_pes_bytes; [reflexivity|exact HGS|]. unfold vok in H1. cbn [fst snd] in H1. rewrite H1.
  unfold pes_len. pose proof (Zle_0_nat (length d)). unfold zlen.
  destruct (is_video t && negb (c_align c)); [lia|]. destruct (65535 <? _) eqn:E; [lia|]. destruct (is_video t); lia.
Qed.

Lemma all_good c t marks : forall recs ss, recs_ok c marks recs ss -> Forall (vok c t) recs ->
  forall l sl, good_all c t marks (doff recs) l sl ->
  good_all c t marks 0 (rev (map (pes_of t) recs) ++ l) (rev ss ++ sl).
Proof.
  induction recs as [|[[[f al] v] d] recs IH]; intros ss HR HV l sl HL; destruct ss as [|[pos fr] ss]; try contradiction.
  - exact HL.
  - cbn [map rev]. rewrite <- !app_assoc. cbn [app]. cbn [recs_ok] in HR. destruct HR as [HH HR].
    inversion HV as [|x y V1 V2]. subst x y. apply IH; [exact HR|exact V2|].
    cbn [good_all pes_of hd_pes snd p_data]. split; [|exact HL].
    cbn [head_ok fst snd] in HH. destruct HH as (A1 & A2 & A3 & A4 & A5).
    cbn [good_pes p_sid p_len p_aligned p_pts p_dts p_data]. rewrite A2.
    split; [reflexivity|]. split; [exact V1|]. split; [exists (f_pts f); auto|]. auto.
Qed.

Lemma data_ok t recs : concat (map (fun r => p_data (snd r)) (rev (map (pes_of t) recs))) = concat (rev (map snd recs)).
Proof.
  rewrite map_rev, map_map. f_equal. f_equal. apply map_ext. intros [[[f al] v] d]. reflexivity.
Qed.

Lemma consec_counts t : forall l x, consec x l -> counts x (map x_cc (map (pkt_tsp t) l)).
Proof. induction l as [|p l IH]; intros x; [auto|]. cbn [consec map counts]. intros [<- H]. split; [reflexivity|auto]. Qed.

Lemma own_snd i q l (ls : list (nat * pkt)) : own i q = map (enc_slot l) ls ->
  map snd (own i q) = map (fun p => Some (wire l p)) (map snd ls).
Proof. intros ->. rewrite !map_map. reflexivity. Qed.

Lemma owner_lt n q : (forall j, (n <= j)%nat -> own j q = []) -> forall j x, In (j, x) (q_slots q) -> (j < n)%nat.
Proof.
  intros H j x Hin. destruct (Nat.lt_ge_cases j n) as [|Hge]; [assumption|]. exfalso.
  apply In_nth_error in Hin as [k Hk]. apply own_in in Hk. rewrite (H j Hge) in Hk. exact Hk.
Qed.

Lemma closed_stream c N ops ps s z al i t :
  G c N ops ps s z al -> Forall (fun p => p = New \/ p = Done) ps -> nth_error (c_strms c) i = Some t ->
  exists a recs, nth_error al i = Some a /\ map snd (own i (s_q s)) = map (fun p => Some (wire t p)) (a_done a) /\
    groups (a_done a) = Some recs /\ K t (a_done a) None (a_cc a) /\ Forall (vok c t) recs /\
    concat (rev (map snd recs)) = h_data (pushed i ops) /\
    recs_ok c (h_marks (pushed i ops)) recs (rev (h_frames (pushed i ops))) /\
    (is_other t = false -> recs <> [] -> a_cc a mod 16 = 0).
Proof.
  intros HG HF Ht. destruct (g_each _ _ _ _ _ _ _ HG i t Ht) as (e & ph & a & m & recs & tail & H1 & H2 & H3 & H4 & H5 & H6 & H7).
  assert (Hph : ph = New \/ ph = Done) by (rewrite Forall_forall in HF; apply HF; eapply nth_error_In; exact H2).
  assert (Ho : a_open a = None).
  { pose proof (j_ph _ _ _ _ _ _ _ H6) as HP. destruct Hph; subst ph; exact (proj1 HP). }
  destruct H5 as (ls & pl & HR). pose proof (r_own _ _ _ _ _ _ _ _ _ HR) as HO.
  unfold open_slot in HO. rewrite Ho, app_nil_r in HO.
  destruct (j_v _ _ _ _ _ _ _ H6) as (GG & G1 & G2). rewrite Ho in G2. cbn [view] in G2. injection G2 as -> <-.
  exists a, recs. split; [exact H3|].
  split; [rewrite (own_snd _ _ _ _ HO), (r_done _ _ _ _ _ _ _ _ _ HR); reflexivity|].
  split; [exact G1|]. split; [pose proof (j_k _ _ _ _ _ _ _ H6) as HK; rewrite Ho in HK; exact HK|].
  split; [pose proof (j_len _ _ _ _ _ _ _ H6) as HL; destruct Hph; subst ph; exact HL|].
  split; [pose proof (j_data _ _ _ _ _ _ _ H6) as HD; rewrite app_nil_r in HD; exact HD|].
  split; [exact (j_recs _ _ _ _ _ _ _ H6)|].
  intros Eo Hr. pose proof (j_ph _ _ _ _ _ _ _ H6) as HP. destruct Hph; subst ph; cbn [ph_ok] in HP.
  - destruct HP. congruence.
  - apply HP. exact Eo.
Qed.

Lemma phases_G c ops ps : good_conf c -> phases c ops = Some ps ->
  exists al, G c 0 ops ps (run c (init c) ops) (sim_run c (sim_init c) ops) al.
Proof.
  intros HC HP. destruct (G_run c 0 ops HC [] _ _ _ _ ps (G_init c) HP) as (al & HG & _). exists al. exact HG.
Qed.

Lemma done_D c N ops ps s z al : G c N ops ps s z al -> Forall (fun p => p = New \/ p = Done) ps ->
  let D := fun i => match nth_error al i with Some a => a_done a | None => [] end in
  forall i t, nth_error (c_strms c) i = Some t ->
     map snd (own i (s_q s)) = map (fun p => Some (wire t p)) (D i) /\
     Forall (fun p => length (wire t p) = 188%nat) (D i).
Proof.
  intros HG HF D i t Ht. destruct (closed_stream _ _ _ _ _ _ _ _ _ HG HF Ht) as (a & recs & H1 & H2 & H3 & H4 & _).
  unfold D. rewrite H1. split; [exact H2|]. exact (k_full _ _ _ _ H4).
Qed.

Lemma player c ops : good_conf c -> finished c ops ->
  exists out ps, contents (q_slots (s_q (run c (init c) ops))) = Some out /\
    parse_all out = Some ps /\ Forall (fun p => In (x_pid p) (map t_pid (c_strms c))) ps /\
    forall i t, nth_error (c_strms c) i = Some t ->
      exists ccs l, demux (t_pid t) out = Some (ccs, l) /\
        counts (t_cc0 t) ccs /\
        (is_other t = false -> l <> [] -> (t_cc0 t + Z.of_nat (length ccs)) mod 16 = 0) /\
        concat (map (fun r => p_data (snd r)) l) = h_data (pushed i ops) /\
        good_all c t (h_marks (pushed i ops)) 0 l (h_frames (pushed i ops)).
Proof.
  intros HC (ps & HP & HF). destruct (phases_G c ops ps HC HP) as (al & HG).
  set (s := run c (init c) ops) in *.
  assert (HGS : Forall good_strm (c_strms c)) by exact (proj2 HC).
  destruct (slots_read (c_strms c) (proj1 HC) HGS (q_slots (s_q s)) 0
     (fun i => match nth_error al i with Some a => a_done a | None => [] end)) as (out & tps & E1 & E2 & E3 & E4 & E5).
  - intros j x. apply owner_lt. exact (g_own _ _ _ _ _ _ _ HG).
  - exact (done_D _ _ _ _ _ _ _ HG HF).
  - exists out, tps. split; [exact E1|]. split; [exact E2|]. split; [exact E4|]. intros i t Ht.
    destruct (closed_stream _ _ _ _ _ _ _ _ _ HG HF Ht) as (a & recs & H1 & H2 & H3 & H4 & H5 & H6 & H7 & H8).
    specialize (E5 i t Ht). rewrite H1 in E5.
    pose proof (good_nth _ _ _ HC Ht) as HGt.
    assert (ES : split (map (pkt_tsp t) (a_done a)) = ([], rev (map (unit_of t) recs))).
    { pose proof (split_groups t (a_done a) recs [] [] [] H3 eq_refl) as H. rewrite app_nil_r in H. rewrite H.
      destruct recs as [|[h d] old]; [reflexivity|]. rewrite app_nil_r. reflexivity. }
    exists (map x_cc (map (pkt_tsp t) (a_done a))), (rev (map (pes_of t) recs)).
    split; [unfold demux; rewrite E2, E5, ES, (units_ok c t HGt recs H5); reflexivity|].
    pose proof (k_seq _ _ _ _ H4) as HQ. cbn [opt] in HQ. rewrite app_nil_r in HQ.
    pose proof (k_next _ _ _ _ H4) as HX. cbn [opt] in HX. rewrite app_nil_r in HX.
    split; [apply consec_counts; exact HQ|].
    split; [intros Eo Hl; rewrite !map_length, <- HX; apply H8; [exact Eo|]; intros ->; apply Hl; reflexivity|].
    split; [rewrite data_ok; exact H6|].
    pose proof (all_good c t _ _ _ H7 H5 [] [] I) as HA. rewrite rev_involutive, !app_nil_r in HA. exact HA.
Qed.

(* ---------- the size ---------- *)

Lemma sum_ext {A} (f g : A -> nat) l : (forall x, In x l -> f x = g x) -> sum (map f l) = sum (map g l).
Proof. intros H. f_equal. apply map_ext_in. exact H. Qed.

Lemma sum_bump f j : forall n s, (s <= j < s + n)%nat ->
  sum (map (fun i => if (j =? i)%nat then S (f i) else f i) (seq s n)) = S (sum (map f (seq s n))).
Proof.
  induction n as [|n IH]; intros s Hj; [lia|]. cbn [seq map]. unfold sum in *. cbn [fold_right].
  destruct (j =? s)%nat eqn:E.
  - apply Nat.eqb_eq in E. subst s. cbn. f_equal. f_equal.
    assert (HH : map (fun i => if (j =? i)%nat then S (f i) else f i) (seq (S j) n) = map f (seq (S j) n)).
    { apply map_ext_in. intros i Hi. apply in_seq in Hi. destruct (j =? i)%nat eqn:E; [apply Nat.eqb_eq in E; lia|reflexivity]. }
    rewrite HH. reflexivity.
  - apply Nat.eqb_neq in E. rewrite IH by lia. lia.
Qed.

Lemma slots_sum n : forall (l : list slot) k, (forall j x, In (j, x) l -> (j < n)%nat) ->
  sum (map (fun i => length (own_from k i l)) (seq 0 n)) = length l.
Proof.
  induction l as [|[j x] l IH]; intros k H; cbn [own_from length].
  - clear. induction (seq 0 n) as [|x l IHl]; [reflexivity|]. exact IHl.
  - rewrite <- (IH (S k)) by (intros j' x' Hin; apply (H j' x'); right; exact Hin).
    rewrite <- (sum_bump (fun i => length (own_from (S k) i l)) j n 0).
    + apply sum_ext. intros i _. destruct (j =? i)%nat; reflexivity.
    + pose proof (H j x (or_introl eq_refl)). lia.
Qed.

Lemma map_nth_seq {A} (f : A -> nat) (g : nat -> nat) : forall (l : list A) s,
  (forall i a, nth_error l i = Some a -> g (s + i)%nat = f a) -> map g (seq s (length l)) = map f l.
Proof.
  induction l as [|a l IH]; intros s H; [reflexivity|]. cbn [length seq map]. f_equal.
  - rewrite <- (H 0%nat a eq_refl). f_equal. lia.
  - apply IH. intros i b Hb. rewrite <- (H (S i) b Hb). f_equal. lia.
Qed.

Lemma size_is c ops : good_conf c -> finished c ops ->
  q_count (z_q (sim_run c (sim_init c) ops)) = Z.of_nat (length (q_slots (s_q (run c (init c) ops)))).
Proof.
  intros HC (ps & HP & HF). destruct (phases_G c ops ps HC HP) as (al & HG).
  rewrite (g_count _ _ _ _ _ _ _ HG). unfold total. f_equal.
  rewrite <- (slots_sum (length (c_strms c)) _ 0 (owner_lt _ _ (g_own _ _ _ _ _ _ _ HG))).
  f_equal. rewrite <- (g_al _ _ _ _ _ _ _ HG). symmetry. apply map_nth_seq. intros i a Ha. cbn [Nat.add].
  pose proof (lt_of _ _ _ Ha) as Hl. rewrite (g_al _ _ _ _ _ _ _ HG) in Hl.
  destruct (nth_error (c_strms c) i) as [t|] eqn:Ht; [|apply nth_error_None in Ht; lia].
  destruct (closed_stream _ _ _ _ _ _ _ _ _ HG HF Ht) as (a' & recs & H1 & H2 & _).
  assert (a' = a) by congruence. subst a'. apply (f_equal (@length _)) in H2. rewrite !map_length in H2. exact H2.
Qed.

(* ---------- what was sent ---------- *)

Lemma tracks_app c a : forall ps b, tracks c ps (a ++ b) =
  match tracks c ps a with Some ps => tracks c ps b | None => None end.
Proof. induction a as [|o a IH]; intros ps b; [reflexivity|]. cbn [app tracks]. destruct (track c ps o); [apply IH|reflexivity]. Qed.

Lemma limit_le l n : (fold_right (fun e m => match e_send e with Some k => Nat.min k m | None => m end) n l <= n)%nat.
Proof. induction l as [|e l IH]; cbn [fold_right]; [lia|]. destruct (e_send e); lia. Qed.

Lemma limit_each l n e m : In e l -> e_send e = Some m ->
  (fold_right (fun e m => match e_send e with Some k => Nat.min k m | None => m end) n l <= m)%nat.
Proof.
  induction l as [|x l IH]; intros Hin E; [destruct Hin|]. cbn [fold_right]. destruct Hin as [->|H].
  - rewrite E. lia.
  - specialize (IH H E). destruct (e_send x); lia.
Qed.

Lemma G_limit c ops ps s z al : G c 0 ops ps s z al -> G c (send_limit s) ops ps s z al.
Proof.
  intros HG. destruct HG. constructor; auto. intros i t Ht.
  destruct (g_each i t Ht) as (e & ph & a & m & recs & tail & H1 & H2 & H3 & H4 & H5 & H6 & H7).
  exists e, ph, a, m, recs, tail. repeat (split; [assumption|]). split; [|split; assumption].
  destruct H5 as (ls & pl & HR). exists ls, pl. destruct HR. constructor; auto.
  assert (HL : (send_limit s <= length (q_slots (s_q s)))%nat) by apply limit_le.
  unfold above. destruct (e_send e) as [k|] eqn:Es.
  - assert (Hk : (send_limit s <= k)%nat) by (apply (limit_each _ _ e k); [eapply nth_error_In; exact H1|exact Es]).
    destruct r_send as (A1 & A2 & A3). split; [exact HL|]. split.
    + intros Ho n Hn. specialize (A2 Ho n Hn). lia.
    + intros Ho n o Hn. specialize (A3 Ho n o Hn). lia.
  - destruct r_send as (A1 & A2). split; [exact HL|]. split; congruence.
Qed.

Lemma sent_final c ops1 ops2 ps n : good_conf c -> phases c (ops1 ++ ops2) = Some ps ->
  (n < send_limit (run c (init c) ops1))%nat ->
  exists j b, nth_error (q_slots (s_q (run c (init c) ops1))) n = Some (j, Some b) /\
    nth_error (q_slots (s_q (run c (init c) (ops1 ++ ops2)))) n = Some (j, Some b).
Proof.
  intros HC HP Hn. unfold phases in HP. rewrite tracks_app in HP.
  destruct (tracks c (map (fun _ => New) (c_strms c)) ops1) as [ps1|] eqn:E1; [|discriminate].
  destruct (phases_G c ops1 ps1 HC E1) as (al & HG). apply G_limit in HG.
  assert (Er : run c (init c) (ops1 ++ ops2) = run c (run c (init c) ops1) ops2) by (unfold run; apply fold_left_app).
  rewrite Er. set (s := run c (init c) ops1) in *.
  destruct (G_run c (send_limit s) ops2 HC _ _ _ _ _ _ HG HP) as (al2 & _ & HK).
  rewrite (HK n Hn).
  assert (HL : (n < length (q_slots (s_q s)))%nat).
  { enough (send_limit s <= length (q_slots (s_q s)))%nat by lia. apply limit_le. }
  destruct (nth_error (q_slots (s_q s)) n) as [[j x]|] eqn:En; [|apply nth_error_None in En; lia].
  assert (Hj : (j < length (c_strms c))%nat).
  { apply (owner_lt _ _ (g_own _ _ _ _ _ _ _ HG) j x). eapply nth_error_In. exact En. }
  destruct (nth_error (c_strms c) j) as [t|] eqn:Ht; [|apply nth_error_None in Ht; lia].
  destruct (g_each _ _ _ _ _ _ _ HG j t Ht) as (e & ph & a & m & recs & tail & H1 & H2 & H3 & H4 & H5 & H6 & H7).
  destruct H5 as (ls & pl & HR). apply own_in in En. rewrite (r_own _ _ _ _ _ _ _ _ _ HR) in En.
  apply in_app_or in En as [En|En].
  - apply in_map_iff in En as [[n0 p] [En _]]. unfold enc_slot in En. cbn [fst snd] in En. injection En as -> <-. eauto.
  - exfalso. unfold open_slot in En. destruct (a_open a) as [p|] eqn:Ho; [|destruct En].
    destruct pl as [|k]; [destruct En|]. destruct En as [En|[]]. injection En as -> <-.
    destruct (r_above _ _ _ _ _ _ _ _ _ HR) as (_ & A2 & _). specialize (A2 ltac:(congruence) n eq_refl). lia.
Qed.
