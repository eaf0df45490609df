(* Proofs about the MPEG-TS muxer, part 1: what the filters at the top make of a
   frame. *)

From Coq Require Import ZArith List Bool Lia ZifyBool.
From Verif Require Import Lists TsModel TsSpec MuxModel MuxSpec.
Import ListNotations.
Open Scope Z_scope.

Lemma zlen_app a b : zlen (a ++ b) = zlen a + zlen b.
Proof. unfold zlen. rewrite app_length. lia. Qed.

Lemma zlen_nil : zlen [] = 0.
Proof. reflexivity. Qed.

Lemma zlen_pos b : b <> [] -> 0 < zlen b.
Proof. destruct b; [congruence|]. intros _. unfold zlen. cbn [length]. lia. Qed.

Lemma zlen_ge b : 0 <= zlen b.
Proof. unfold zlen. lia. Qed.

Notation full := (fun b : list Z => b <> []).

Lemma firstn_full n (l : list Z) : (0 < n)%nat -> l <> [] -> firstn n l <> [].
Proof. destruct n, l; cbn; try lia; congruence. Qed.

(* ---------- sizes ---------- *)

Definition sane (s : nst) : Prop := ns_state s <> NSize -> 0 < ns_left s.

Lemma body_acc v (copy : bool) s buf s' calls rest :
  nal_body v copy s buf = (s', calls, rest) -> 0 < ns_left s -> buf <> [] ->
  exists P, calls = map CWrite P /\ Forall full P /\
    ns_size s' = ns_size s - zlen (concat P) /\ sane s' /\ (length rest < length buf)%nat.
Proof.
  intros H HL HB. unfold nal_body in H. injection H as <- <- <-.
  set (w := Nat.min (Z.to_nat (ns_left s)) (length buf)).
  assert (Hw : (0 < w <= length buf)%nat) by (subst w; destruct buf; [congruence|cbn [length]; lia]).
  exists (if copy then [firstn w buf] else []).
  split; [destruct copy; reflexivity|].
  split. { destruct copy; repeat constructor. apply firstn_full; [lia|exact HB]. }
  split.
  { assert (E : zlen (concat (if copy then [firstn w buf] else [])) = if copy then Z.of_nat w else 0).
    { destruct copy; [|reflexivity]. cbn [concat]. rewrite app_nil_r. unfold zlen. rewrite firstn_length. lia. }
    rewrite E. destruct (ns_left s - Z.of_nat w <=? 0), copy; cbn [ns_size]; lia. }
  split.
  { unfold sane. destruct (ns_left s - Z.of_nat w <=? 0) eqn:El; cbn [ns_state ns_left]; [congruence|].
    intros _. clear - El. lia. }
  rewrite skipn_length. lia.
Qed.

Lemma map_app' (A B : list (list Z)) : map CWrite A ++ map CWrite B = map CWrite (A ++ B).
Proof. symmetry. apply map_app. Qed.

Lemma write_acc v n : forall s buf s' calls,
  nal_write n v s buf = Some (s', calls) -> sane s ->
  exists P, calls = map CWrite P /\ Forall full P /\
    ns_size s' = ns_size s - zlen (concat P) /\ sane s'.
Proof.
  induction n as [|n IH]; intros s buf s' calls H HS.
  - cbn in H. assert (E : Some (s, @nil call) = Some (s', calls)) by (destruct buf; exact H).
    injection E as <- <-. exists []. split; [reflexivity|]. split; [constructor|].
    split; [cbn; lia|exact HS].
  - destruct buf as [|x0 buf0].
    { cbn in H. injection H as <- <-. exists []. split; [reflexivity|]. split; [constructor|].
      split; [cbn; lia|exact HS]. }
    cbn [nal_write] in H.
    remember (x0 :: buf0) as buf eqn:Eb.
    assert (HB : buf <> []) by (subst buf; discriminate).
    assert (Hrest : forall copy s1,
      (let '(s2, calls1, rest) := nal_body v copy s1 buf in
       match nal_write n v s2 rest with
       | Some (s3, calls2) => Some (s3, calls1 ++ calls2)
       | None => None
       end) = Some (s', calls) -> 0 < ns_left s1 ->
      exists P, calls = map CWrite P /\ Forall full P /\
        ns_size s' = ns_size s1 - zlen (concat P) /\ sane s').
    { clear H. intros copy s1 H HL. destruct (nal_body v copy s1 buf) as [[s2 calls1] rest] eqn:E1.
      destruct (body_acc _ _ _ _ _ _ _ E1 HL HB) as (P1 & -> & F1 & Z1 & S1 & _).
      destruct (nal_write n v s2 rest) as [[s3 calls2]|] eqn:E2; [|discriminate]. injection H as <- <-.
      destruct (IH _ _ _ _ E2 S1) as (P2 & -> & F2 & Z2 & S2).
      exists (P1 ++ P2). rewrite map_app'. split; [reflexivity|]. split; [apply Forall_app; auto|].
      rewrite concat_app, zlen_app. split; [lia|exact S2]. }
    destruct (ns_state s) eqn:Es.
    + clear Hrest.
      set (k := Nat.min (ns_len s) (length buf)) in *.
      set (left := fold_left (fun a x => a * 256 + x) (firstn k buf) (ns_left s)) in *.
      destruct (skipn k buf) as [|x r] eqn:Ek.
      { injection H as <- <-. exists []. split; [reflexivity|]. split; [constructor|].
        split; [cbn; lia|]. intros C. cbn in C. congruence. }
      destruct (left <=? 0) eqn:El; [discriminate|].
      cbn [ns_first ns_len ns_size] in H.
      set (copy := negb (Z.land x (vc_mask v) =? vc_audt v)) in *.
      assert (G : exists s1 P0,
        (if copy then
           if ns_first s
           then (Nst NCopy false (ns_len s - k) left (ns_size s - 4), [CWrite [0; 0; 0; 1]])
           else (Nst NCopy false (ns_len s - k) left (ns_size s - 3), [CWrite [0; 0; 1]])
         else (Nst NSkip (ns_first s) (ns_len s - k) left (ns_size s), [])) = (s1, map CWrite P0) /\
        Forall full P0 /\ ns_size s1 = ns_size s - zlen (concat P0) /\ ns_left s1 = left).
      { destruct copy; [destruct (ns_first s)|].
        - eexists _, [[0; 0; 0; 1]]. split; [reflexivity|].
          split; [repeat constructor; discriminate|]. split; [reflexivity|reflexivity].
        - eexists _, [[0; 0; 1]]. split; [reflexivity|].
          split; [repeat constructor; discriminate|]. split; [reflexivity|reflexivity].
        - eexists _, []. split; [reflexivity|].
          split; [repeat constructor; discriminate|]. split; [cbn; lia|reflexivity]. }
      destruct G as (s1 & P0 & G0 & F0 & Z0 & L0). rewrite G0 in H.
      destruct (nal_body v copy s1 (x :: r)) as [[s2 calls1] rest] eqn:E1.
      destruct (body_acc _ _ _ _ _ _ _ E1 ltac:(lia) ltac:(discriminate)) as (P1 & -> & F1 & Z1 & S1 & _).
      destruct (nal_write n v s2 rest) as [[s3 calls2]|] eqn:E2; [|discriminate]. injection H as <- <-.
      destruct (IH _ _ _ _ E2 S1) as (P2 & -> & F2 & Z2 & S2).
      exists (P0 ++ P1 ++ P2). rewrite !map_app'. split; [reflexivity|].
      split; [rewrite !Forall_app; auto|].
      rewrite !concat_app, !zlen_app. split; [lia|exact S2].
    + apply (Hrest true s H). apply HS. congruence.
    + apply (Hrest false s H). apply HS. congruence.
Qed.

Lemma writes_acc v chunks : forall s s' calls,
  nal_writes v s chunks = Some (s', calls) -> sane s ->
  exists P, calls = map CWrite P /\ Forall full P /\
    ns_size s' = ns_size s - zlen (concat P) /\ sane s'.
Proof.
  induction chunks as [|b chunks IH]; intros s s' calls H HS; cbn [nal_writes] in H.
  - injection H as <- <-. exists []. split; [reflexivity|]. split; [constructor|].
    split; [cbn; lia|exact HS].
  - destruct (nal_write (length b) v s b) as [[s1 calls1]|] eqn:E1; [|discriminate].
    destruct (write_acc _ _ _ _ _ _ E1 HS) as (P1 & -> & F1 & Z1 & S1).
    destruct (nal_writes v s1 chunks) as [[s2 calls2]|] eqn:E2; [|discriminate]. injection H as <- <-.
    destruct (IH _ _ _ E2 S1) as (P2 & -> & F2 & Z2 & S2).
    exists (P1 ++ P2). rewrite map_app'. split; [reflexivity|]. split; [apply Forall_app; auto|].
    rewrite concat_app, zlen_app. split; [lia|exact S2].
Qed.

Lemma map_repeat' {A B} (g : A -> B) x n : map g (repeat x n) = repeat (g x) n.
Proof. induction n as [|n IH]; cbn; [reflexivity|]. rewrite IH. reflexivity. Qed.

Lemma zeros_acc n : 0 <= n -> exists P, zeros n = map CWrite P /\ Forall full P /\
  concat P = repeat 0 (Z.to_nat n).
Proof.
  intros Hn. unfold zeros.
  exists (repeat (repeat 0 64) (Z.to_nat (n / 64)) ++
          (if n mod 64 =? 0 then [] else [repeat 0 (Z.to_nat (n mod 64))])).
  split.
  { rewrite map_app, map_repeat'. destruct (n mod 64 =? 0); reflexivity. }
  split.
  { apply Forall_app. split.
    - apply Forall_forall. intros x Hx. apply repeat_spec in Hx. subst x. discriminate.
    - destruct (n mod 64 =? 0) eqn:E; constructor; [|constructor].
      pose proof (Z.mod_pos_bound n 64 ltac:(lia)) as Hm. apply Z.eqb_neq in E.
      destruct (Z.to_nat (n mod 64)) eqn:E2; [clear - E E2 Hm; lia|discriminate]. }
  rewrite concat_app.
  assert (E1 : forall k, concat (repeat (repeat 0 64) k) = repeat 0 (k * 64)%nat).
  { induction k as [|k IHk]; [reflexivity|].
    change (repeat (repeat 0 64) (S k)) with (repeat 0 64 :: repeat (repeat 0 64) k).
    cbn [concat]. rewrite IHk, <- repeat_app. f_equal. }
  rewrite E1.
  assert (E2 : concat (if n mod 64 =? 0 then [] else [repeat 0 (Z.to_nat (n mod 64))]) =
               repeat 0 (Z.to_nat (n mod 64))).
  { destruct (n mod 64 =? 0) eqn:E; [|cbn [concat]; apply app_nil_r].
    replace (n mod 64) with 0 by lia. reflexivity. }
  rewrite E2, <- repeat_app. f_equal.
  pose proof (Z.div_mod n 64 ltac:(lia)). pose proof (Z.mod_pos_bound n 64 ltac:(lia)).
  pose proof (Z.div_pos n 64 Hn ltac:(lia)). lia.
Qed.

(* ---------- the units ---------- *)

Fixpoint units_out (v : vconf) (first : bool) (us : list (list Z)) : list Z :=
  match us with
  | [] => []
  | u :: us =>
      if is_aud v u then units_out v first us
      else (if first then [0; 0; 0; 1] else [0; 0; 1]) ++ u ++ units_out v false us
  end.

(* What is still to be read, and what will be written for it. *)
Inductive pend (v : vconf) : nst -> list Z -> list Z -> Prop :=
| pend_done b z : pend v (Nst NSize b (vc_nal v) 0 z) [] []
| pend_len b k L z h u l us : length h = k -> fold_left (fun a x => a * 256 + x) h L = zlen u ->
    u <> [] -> nal_frame (vc_nal v) l us ->
    pend v (Nst NSize b k L z) (h ++ u ++ l) (units_out v b (u :: us))
| pend_copy k z u l us : u <> [] -> nal_frame (vc_nal v) l us ->
    pend v (Nst NCopy false k (zlen u) z) (u ++ l) (u ++ units_out v false us)
| pend_skip b k z u l us : u <> [] -> nal_frame (vc_nal v) l us ->
    pend v (Nst NSkip b k (zlen u) z) (u ++ l) (units_out v b us).

Lemma pend_start v b z l us : nal_frame (vc_nal v) l us ->
  pend v (Nst NSize b (vc_nal v) 0 z) l (units_out v b us).
Proof. intros H. destruct H; [constructor|]. econstructor; eauto. Qed.

Lemma app_split {A} (b D h r : list A) : b ++ D = h ++ r ->
  (exists x, b = h ++ x /\ r = x ++ D) \/ (exists x, x <> [] /\ h = b ++ x /\ D = x ++ r).
Proof.
  revert h. induction b as [|y b IH]; intros h H.
  - destruct h as [|z h]; [left; exists []; auto|right; exists (z :: h)].
    split; [discriminate|]. split; [reflexivity|exact H].
  - destruct h as [|z h].
    + left. exists (y :: b). split; [reflexivity|]. symmetry. exact H.
    + cbn in H. injection H as -> H. destruct (IH _ H) as [(x & -> & E)|(x & Hx & -> & E)].
      * left. exists x. auto.
      * right. exists x. auto.
Qed.

Lemma body_pend v (copy : bool) (first : bool) k z u l us b D s' calls rest :
  u <> [] -> nal_frame (vc_nal v) l us -> b ++ D = u ++ l -> b <> [] ->
  nal_body v copy (Nst (if copy then NCopy else NSkip) first k (zlen u) z) b = (s', calls, rest) ->
  (copy = true -> first = false) ->
  exists P o', calls = map CWrite P /\
    (if copy then u else []) ++ units_out v first us = concat P ++ o' /\
    pend v s' (rest ++ D) o'.
Proof.
  intros Hu HN HD Hb H HF. unfold nal_body in H. cbn [ns_left ns_size ns_first ns_len] in H.
  destruct (app_split _ _ _ _ HD) as [(x & -> & El)|(x & Hx & -> & El)].
  - assert (Hw : Nat.min (Z.to_nat (zlen u)) (length (u ++ x)) = length u).
    { unfold zlen. rewrite Nat2Z.id, app_length. lia. }
    rewrite Hw in H. rewrite firstn_app_exact, skipn_app_exact in H.
    replace (zlen u - Z.of_nat (length u)) with 0 in H by (unfold zlen; lia). cbn [Z.leb Z.compare] in H.
    injection H as <- <- <-.
    exists (if copy then [u] else []), (units_out v first us).
    split; [destruct copy; reflexivity|].
    split; [destruct copy; cbn [concat]; rewrite ?app_nil_r; reflexivity|].
    rewrite <- El. apply pend_start. exact HN.
  - assert (Hw : Nat.min (Z.to_nat (zlen (b ++ x))) (length b) = length b).
    { unfold zlen. rewrite Nat2Z.id, app_length. lia. }
    rewrite Hw in H. rewrite firstn_all, skipn_all in H.
    replace (zlen (b ++ x) - Z.of_nat (length b)) with (zlen x) in H by (rewrite zlen_app; unfold zlen; lia).
    pose proof (zlen_pos x Hx). replace (zlen x <=? 0) with false in H by lia.
    injection H as <- <- <-. subst D. cbn [app].
    exists (if copy then [b] else []), ((if copy then x else []) ++ units_out v first us).
    split; [destruct copy; reflexivity|].
    split. { destruct copy; cbn [concat app]; rewrite ?app_nil_r, <- ?app_assoc; reflexivity. }
    destruct copy; cbn [app].
    + rewrite (HF eq_refl). apply pend_copy; assumption.
    + apply pend_skip; assumption.
Qed.

Lemma body_left v copy s b s' calls rest : nal_body v copy s b = (s', calls, rest) ->
  0 < ns_left s -> b <> [] -> (length rest < length b)%nat.
Proof. intros H1 H2 H3. destruct (body_acc _ _ _ _ _ _ _ H1 H2 H3) as (P & _ & _ & _ & _ & H). exact H. Qed.

Lemma write_pend v n : forall s b D o, pend v s (b ++ D) o -> (length b <= n)%nat ->
  exists s' P o', nal_write n v s b = Some (s', map CWrite P) /\ o = concat P ++ o' /\ pend v s' D o'.
Proof.
  induction n as [|n IH]; intros s b D o HP Hn.
  - destruct b; [|cbn in Hn; lia]. exists s, [], o. auto.
  - destruct b as [|x0 b0]; [exists s, [], o; auto|].
    remember (x0 :: b0) as b eqn:Eb. assert (HB : b <> []) by (subst b; discriminate).
    assert (EW : nal_write (S n) v s b =
      match ns_state s with
      | NSize =>
          let k := Nat.min (ns_len s) (length b) in
          let left := fold_left (fun a x => a * 256 + x) (firstn k b) (ns_left s) in
          let s := Nst NSize (ns_first s) (ns_len s - k) left (ns_size s) in
          match skipn k b with
          | [] => Some (s, [])
          | (x :: _) as buf =>
              if left <=? 0 then None
              else
                let copy := negb (Z.land x (vc_mask v) =? vc_audt v) in
                let '(s, calls) :=
                  if copy then
                    if ns_first s
                    then (Nst NCopy false (ns_len s) left (ns_size s - 4), [CWrite [0; 0; 0; 1]])
                    else (Nst NCopy false (ns_len s) left (ns_size s - 3), [CWrite [0; 0; 1]])
                  else (Nst NSkip (ns_first s) (ns_len s) left (ns_size s), []) in
                let '(s, calls1, buf) := nal_body v copy s buf in
                match nal_write n v s buf with
                | Some (s, calls2) => Some (s, calls ++ calls1 ++ calls2)
                | None => None
                end
          end
      | st =>
          let '(s, calls1, buf) :=
            nal_body v (match st with NCopy => true | _ => false end) s b in
          match nal_write n v s buf with
          | Some (s, calls2) => Some (s, calls1 ++ calls2)
          | None => None
          end
      end) by (subst b; reflexivity).
    rewrite EW. clear EW x0 b0 Eb.
    remember (b ++ D) as bD eqn:ED. symmetry in ED.
    destruct HP as [bb z|bb k L z h u l us Hh HL Hu HN|k z u l us Hu HN|bb k z u l us Hu HN].
    + destruct b; [congruence|discriminate].
    + cbn [ns_state ns_len ns_left ns_first ns_size].
      destruct (app_split _ _ _ _ ED) as [(x & -> & El)|(x & Hx & -> & El)].
      * assert (Hw : Nat.min k (length (h ++ x)) = length h) by (rewrite app_length; lia).
        rewrite Hw, firstn_app_exact, skipn_app_exact, HL. cbv zeta.
        replace (k - length h)%nat with O by lia.
        destruct x as [|y x].
        { exists (Nst NSize bb 0 (zlen u) z), [], (units_out v bb (u :: us)).
          split; [reflexivity|]. split; [reflexivity|]. cbn [app] in El. rewrite <- El.
          apply (pend_len v bb 0 (zlen u) z [] u l us); auto. }
        pose proof (zlen_pos u Hu). replace (zlen u <=? 0) with false by lia.
        assert (Ea : (Z.land y (vc_mask v) =? vc_audt v) = is_aud v u).
        { destruct u as [|y' u]; [congruence|]. cbn [app] in El. injection El as -> _. reflexivity. }
        rewrite Ea.
        assert (Hlen : (length (y :: x) <= S n)%nat) by (rewrite app_length in Hn; lia).
        destruct (is_aud v u) eqn:Eu; cbn [negb].
        -- destruct (nal_body v false (Nst NSkip bb 0 (zlen u) z) (y :: x)) as [[s1 calls1] rest] eqn:E1.
           destruct (body_pend v false bb 0 z u l us (y :: x) D s1 calls1 rest Hu HN (eq_sym El)
             ltac:(discriminate) E1 ltac:(discriminate)) as (P1 & o1 & -> & EO & HP1).
           pose proof (body_left _ _ _ _ _ _ _ E1 ltac:(cbn; lia) ltac:(discriminate)) as Hl.
           destruct (IH _ _ _ _ HP1 ltac:(lia)) as (s2 & P2 & o2 & E2 & EO2 & HP2). rewrite E2.
           exists s2, (P1 ++ P2), o2. rewrite <- map_app'. split; [reflexivity|].
           split; [|exact HP2]. cbn [units_out]. rewrite Eu. cbn [app] in EO.
           rewrite EO, EO2, concat_app, app_assoc. reflexivity.
        -- set (mk := if bb then [0; 0; 0; 1] else [0; 0; 1]).
           assert (Em : (if bb then (Nst NCopy false 0 (zlen u) (z - 4), [CWrite [0; 0; 0; 1]])
                         else (Nst NCopy false 0 (zlen u) (z - 3), [CWrite [0; 0; 1]])) =
                        (Nst NCopy false 0 (zlen u) (z - (if bb then 4 else 3)), [CWrite mk]))
             by (destruct bb; reflexivity).
           rewrite Em.
           destruct (nal_body v true (Nst NCopy false 0 (zlen u) (z - (if bb then 4 else 3))) (y :: x))
             as [[s1 calls1] rest] eqn:E1.
           destruct (body_pend v true false 0 _ u l us (y :: x) D s1 calls1 rest Hu HN (eq_sym El)
             ltac:(discriminate) E1 ltac:(reflexivity)) as (P1 & o1 & -> & EO & HP1).
           pose proof (body_left _ _ _ _ _ _ _ E1 ltac:(cbn; lia) ltac:(discriminate)) as Hl.
           destruct (IH _ _ _ _ HP1 ltac:(lia)) as (s2 & P2 & o2 & E2 & EO2 & HP2). rewrite E2.
           exists s2, ([mk] ++ P1 ++ P2), o2. rewrite <- !map_app'. split; [reflexivity|].
           split; [|exact HP2]. cbn [units_out]. rewrite Eu. fold mk.
           rewrite EO, EO2, !concat_app, <- !app_assoc. cbn [concat app].
           rewrite app_nil_r. reflexivity.
      * assert (Hw : Nat.min k (length b) = length b) by (rewrite app_length in Hh; lia).
        rewrite Hw, firstn_all, skipn_all. cbv zeta.
        exists (Nst NSize bb (k - length b) (fold_left (fun a x => a * 256 + x) b L) z), [],
          (units_out v bb (u :: us)).
        split; [reflexivity|]. split; [reflexivity|]. subst D.
        rewrite fold_left_app in HL. rewrite app_length in Hh.
        apply pend_len; auto. lia.
    + cbn [ns_state].
      destruct (nal_body v true (Nst NCopy false k (zlen u) z) b) as [[s1 calls1] rest] eqn:E1.
      destruct (body_pend v true false k z u l us b D s1 calls1 rest Hu HN ED HB E1
        ltac:(reflexivity)) as (P1 & o1 & -> & EO & HP1).
      pose proof (zlen_pos u Hu).
      pose proof (body_left _ _ _ _ _ _ _ E1 ltac:(cbn; lia) HB) as Hl.
      destruct (IH _ _ _ _ HP1 ltac:(lia)) as (s2 & P2 & o2 & E2 & EO2 & HP2). rewrite E2.
      exists s2, (P1 ++ P2), o2. rewrite <- map_app'. split; [reflexivity|].
      split; [|exact HP2]. rewrite EO, EO2, concat_app, app_assoc. reflexivity.
    + cbn [ns_state].
      destruct (nal_body v false (Nst NSkip bb k (zlen u) z) b) as [[s1 calls1] rest] eqn:E1.
      destruct (body_pend v false bb k z u l us b D s1 calls1 rest Hu HN ED HB E1
        ltac:(discriminate)) as (P1 & o1 & -> & EO & HP1).
      pose proof (zlen_pos u Hu).
      pose proof (body_left _ _ _ _ _ _ _ E1 ltac:(cbn; lia) HB) as Hl.
      destruct (IH _ _ _ _ HP1 ltac:(lia)) as (s2 & P2 & o2 & E2 & EO2 & HP2). rewrite E2.
      exists s2, (P1 ++ P2), o2. rewrite <- map_app'. split; [reflexivity|].
      split; [|exact HP2]. cbn [app] in EO. rewrite EO, EO2, concat_app, app_assoc. reflexivity.
Qed.

Lemma writes_pend v chunks : forall s D o, pend v s (concat chunks ++ D) o ->
  exists s' P o', nal_writes v s chunks = Some (s', map CWrite P) /\ o = concat P ++ o' /\ pend v s' D o'.
Proof.
  induction chunks as [|b chunks IH]; intros s D o HP; cbn [concat] in HP.
  - exists s, [], o. auto.
  - rewrite <- app_assoc in HP.
    destruct (write_pend v (length b) _ _ _ _ HP (le_n _)) as (s1 & P1 & o1 & E1 & EO1 & HP1).
    destruct (IH _ _ _ HP1) as (s2 & P2 & o2 & E2 & EO2 & HP2).
    exists s2, (P1 ++ P2), o2. cbn [nal_writes]. rewrite E1, E2, map_app. split; [reflexivity|].
    split; [|exact HP2]. rewrite EO1, EO2, concat_app, app_assoc. reflexivity.
Qed.

Lemma pend_end v s o : pend v s [] o -> o = [].
Proof.
  intros H. remember [] as D eqn:ED. destruct H as [|bb k L z h u l us Hh HL Hu HN|k z u l us Hu HN|bb k z u l us Hu HN];
    [reflexivity| | |].
  - destruct h; [|discriminate]. destruct u; [congruence|discriminate].
  - destruct u; [congruence|discriminate].
  - destruct u; [congruence|discriminate].
Qed.

(* ---------- Annex B ---------- *)

Lemma bs_zeros k l us : byte_stream l us -> byte_stream (repeat 0 k ++ l) us.
Proof.
  intros H. destruct H as [k2|k2 u l us H].
  - rewrite <- repeat_app. constructor.
  - rewrite app_assoc, <- repeat_app. constructor. exact H.
Qed.

Lemma bs_app l1 u1 l2 u2 : byte_stream l1 u1 -> byte_stream l2 u2 -> byte_stream (l1 ++ l2) (u1 ++ u2).
Proof.
  intros H1 H2. induction H1 as [k|k u l us H IH].
  - apply bs_zeros. exact H2.
  - cbn [app]. rewrite <- !app_assoc. cbn [app]. rewrite <- app_assoc. apply (bs_unit k u (l ++ l2)). exact IH.
Qed.

Lemma bs_units v us k : forall first, Forall full us ->
  byte_stream (units_out v first us ++ repeat 0 k) (filter (fun u => negb (is_aud v u)) us).
Proof.
  induction us as [|u us IH]; intros first HF; cbn [units_out filter].
  - cbn [app]. constructor.
  - inversion HF as [|? ? Hu HF']; subst. destruct (is_aud v u); cbn [negb]; [exact (IH first HF')|].
    rewrite <- !app_assoc. destruct first.
    + apply (bs_unit 1 u). exact (IH false HF').
    + apply (bs_unit 0 u). exact (IH false HF').
Qed.

Lemma frame_full n l us : nal_frame n l us -> Forall full us.
Proof. induction 1; constructor; auto. Qed.

Lemma units_le v us : forall first l, nal_frame 4 l us -> zlen (units_out v first us) <= zlen l.
Proof.
  induction us as [|u us IH]; intros first l H; inversion H as [|h u' l' us' Hh HL Hu HN]; subst.
  - cbn. lia.
  - cbn [units_out]. rewrite !zlen_app.
    assert (zlen h = 4) by (unfold zlen; lia). pose proof (zlen_ge u).
    destruct (is_aud v u).
    + pose proof (IH first l' HN). lia.
    + rewrite !zlen_app. pose proof (IH false l' HN).
      assert (zlen (if first then [0; 0; 0; 1] else [0; 0; 1]) <= 4) by (destruct first; cbn; lia). lia.
Qed.

(* ---------- a frame ---------- *)

Definition top_header (tp : top) : Z :=
  match tp with TVideo v => zlen (vc_aud v) | TAac _ => 1 | _ => 0 end.

(* What the simulation counts. *)
Definition top_extra (tp : top) (fr : iframe) : Z :=
  match tp with
  | TVideo v => zlen (vc_aud v) + (if i_key fr then zlen (vc_extra v) else 0)
  | TAac _ => 7 | TPlain => 0 | TId3 => 21
  end.

Definition nal4 (tp : top) : Prop := match tp with TVideo v => vc_nal v = 4%nat | _ => True end.

Definition top_ok (tp : top) (l : list iframe) : Prop :=
  exists align k, good_top align tp k l.

Lemma aud_full align v k l : good_top align (TVideo v) k l ->
  vc_aud v <> [] /\ vc_extra v <> [] /\ 0 < zlen (vc_aud v).
Proof. intros (_ & H2 & _ & [H|H]); rewrite H; repeat split; try discriminate; exact H2. Qed.

Lemma top_shape tp fr dts last calls align k l :
  top_frame tp fr dts last = Some calls -> good_frame fr -> good_top align tp k l ->
  exists f W, calls = CStart f :: map CWrite W ++ [CFlush last] /\ W <> [] /\ Forall full W /\
    f_dts f = dts /\ f_pts f = dts + i_delay fr /\ f_header f = top_header tp /\
    (nal4 tp -> zlen (concat W) = top_extra tp fr + i_size fr) /\
    (match tp with TVideo _ => True | _ => zlen (concat W) = top_extra tp fr + i_size fr end).
Proof.
  intros H (G1 & G2 & G3) HT. unfold top_frame in H.
  assert (Hc : i_chunks fr <> []).
  { intros E. unfold data_of in G2. rewrite E in G2. cbn in G2. lia. }
  destruct tp as [v|a| |].
  - destruct (aud_full _ _ _ _ HT) as (A1 & A2 & A3).
    unfold nal_start in H. cbn [f_size f_pts f_dts f_header] in H.
    destruct ((0 <? i_size fr) && (i_size fr <=? Z.of_nat (vc_nal v))); [discriminate|].
    match type of H with context [nal_writes v ?s0 _] => set (s := s0) in * end.
    destruct (nal_writes v s (i_chunks fr)) as [[s1 calls2]|] eqn:E1; [|discriminate].
    destruct (writes_acc _ _ _ _ _ E1 ltac:(intros C; subst s; cbn in C; congruence)) as (P & -> & F & Z1 & _).
    destruct (nal_flush v last s1) as [calls3|] eqn:E2; [|discriminate]. injection H as <-.
    assert (E3 : exists P3, calls3 = map CWrite P3 ++ [CFlush last] /\ Forall full P3 /\
      (vc_nal v = 4%nat -> zlen (concat P3) = ns_size s1)).
    { unfold nal_flush in E2. destruct (vc_nal v =? 4)%nat eqn:E4.
      - destruct (ns_size s1 <? 0) eqn:E5; [discriminate|]. injection E2 as <-.
        destruct (zeros_acc (ns_size s1) ltac:(lia)) as (P3 & -> & F3 & C3).
        exists P3. split; [reflexivity|]. split; [exact F3|]. intros _. rewrite C3. unfold zlen.
        rewrite repeat_length. lia.
      - injection E2 as <-. exists []. split; [reflexivity|]. split; [constructor|].
        intros C. apply Nat.eqb_neq in E4. congruence. }
    destruct E3 as (P3 & -> & F3 & Z3).
    exists (Frame (dts + i_delay fr) dts
              (i_size fr + zlen (vc_aud v) + (if i_key fr then zlen (vc_extra v) else 0)) (0 + zlen (vc_aud v))),
      (vc_aud v :: (if i_key fr then [vc_extra v] else []) ++ P ++ P3).
    split.
    { cbn [map app]. rewrite !map_app. destruct (i_key fr); cbn [map app]; rewrite <- ?app_assoc; reflexivity. }
    split; [discriminate|].
    split.
    { constructor; [exact A1|]. rewrite !Forall_app. split; [destruct (i_key fr); repeat constructor; exact A2|auto]. }
    split; [reflexivity|]. split; [reflexivity|]. split; [cbn; lia|].
    split; [|exact I].
    intros HN. cbn [nal4] in HN. specialize (Z3 HN). cbn [concat]. rewrite !concat_app, !zlen_app.
    assert (E6 : zlen (concat (if i_key fr then [vc_extra v] else [])) = if i_key fr then zlen (vc_extra v) else 0).
    { destruct (i_key fr); [|reflexivity]. cbn [concat]. rewrite app_nil_r. reflexivity. }
    rewrite E6. cbn [top_extra]. subst s. cbn [ns_size] in Z1. lia.
  - injection H as <-. eexists _, (adts a (i_size fr + 7) :: i_chunks fr). split; [reflexivity|].
    split; [discriminate|]. split; [constructor; [discriminate|exact G3]|].
    split; [reflexivity|]. split; [reflexivity|]. split; [reflexivity|].
    enough (E : zlen (concat (adts a (i_size fr + 7) :: i_chunks fr)) = 7 + i_size fr) by (split; [intros _|]; exact E).
    cbn [concat]. rewrite zlen_app. unfold data_of in G2. rewrite G2. reflexivity.
  - injection H as <-. eexists _, (i_chunks fr). split; [reflexivity|].
    split; [exact Hc|]. split; [exact G3|].
    split; [reflexivity|]. split; [reflexivity|]. split; [reflexivity|].
    enough (E : zlen (concat (i_chunks fr)) = 0 + i_size fr) by (split; [intros _|]; exact E).
    unfold data_of in G2. lia.
  - injection H as <-. eexists _, (id3_header (i_size fr) :: i_chunks fr). split; [reflexivity|].
    split; [discriminate|]. split; [constructor; [discriminate|exact G3]|].
    split; [reflexivity|]. split; [reflexivity|]. split; [reflexivity|].
    enough (E : zlen (concat (id3_header (i_size fr) :: i_chunks fr)) = 21 + i_size fr) by (split; [intros _|]; exact E).
    cbn [concat]. rewrite zlen_app. unfold data_of in G2. rewrite G2. reflexivity.
Qed.

Fixpoint written (l : list call) : list Z :=
  match l with [] => [] | CWrite b :: l => b ++ written l | _ :: l => written l end.

Lemma written_app a b : written (a ++ b) = written a ++ written b.
Proof. induction a as [|[f|x|x] a IH]; cbn; auto. rewrite IH, app_assoc. reflexivity. Qed.

Lemma written_map P : written (map CWrite P) = concat P.
Proof. induction P as [|b P IH]; cbn; [reflexivity|]. rewrite IH. reflexivity. Qed.

Lemma be_synch x : 0 <= x < 2 ^ 28 -> synch (synchsafe x) = Some x.
Proof.
  intros Hx. unfold synch, synchsafe.
  pose proof (Z.mod_pos_bound (x / 2 ^ 21) 128 ltac:(lia)).
  pose proof (Z.mod_pos_bound (x / 2 ^ 14) 128 ltac:(lia)).
  pose proof (Z.mod_pos_bound (x / 2 ^ 7) 128 ltac:(lia)).
  pose proof (Z.mod_pos_bound x 128 ltac:(lia)).
  replace ((x / 2 ^ 21 mod 128 <? 128) && (x / 2 ^ 14 mod 128 <? 128) && (x / 2 ^ 7 mod 128 <? 128) &&
           (x mod 128 <? 128)) with true by lia.
  f_equal.
  replace (x / 2 ^ 21) with (x / 2 ^ 7 / 2 ^ 7 / 2 ^ 7) by (rewrite !Z.div_div by lia; reflexivity).
  replace (x / 2 ^ 14) with (x / 2 ^ 7 / 2 ^ 7) by (rewrite !Z.div_div by lia; reflexivity).
  change (2 ^ 7) with 128. change (2 ^ 28) with 268435456 in Hx.
  assert (x / 128 / 128 / 128 < 128).
  { rewrite !Z.div_div by lia. apply Z.div_lt_upper_bound; lia. }
  pose proof (Z.div_pos x 128 ltac:(lia) ltac:(lia)) as P1.
  pose proof (Z.div_pos (x / 128) 128 P1 ltac:(lia)) as P2.
  pose proof (Z.div_pos (x / 128 / 128) 128 P2 ltac:(lia)) as P3.
  rewrite (Z.mod_small (x / 128 / 128 / 128)) by lia.
  pose proof (Z.div_mod x 128 ltac:(lia)). pose proof (Z.div_mod (x / 128) 128 ltac:(lia)).
  pose proof (Z.div_mod (x / 128 / 128) 128 ltac:(lia)). lia.
Qed.

Lemma synchsafe_4 x : exists a b c d, synchsafe x = [a; b; c; d].
Proof. unfold synchsafe. eauto. Qed.

Lemma adts_reads a n : 1 <= ac_object a <= 4 -> 0 <= ac_rate a < 16 -> 0 <= ac_chan a < 8 ->
  0 <= n < 8192 -> parse_adts (adts a n) = Some (ac_object a, ac_rate a, ac_chan a, n).
Proof.
  intros H1 H2 H3 H4. unfold parse_adts, adts.
  assert (E0 : (n mod 8 * 32 + 31) mod 32 = 31) by (rewrite Z.add_comm, Z_mod_plus_full; reflexivity).
  rewrite E0. cbn [Z.eqb Pos.eqb].
  rewrite (Z.mod_small (ac_object a - 1)) by lia. rewrite (Z.mod_small (ac_rate a)) by lia.
  pose proof (Z.mod_pos_bound (ac_chan a / 4) 2 ltac:(lia)) as B1.
  assert (C1 : 0 <= ac_chan a / 4 < 2) by (split; [apply Z.div_pos; lia|apply Z.div_lt_upper_bound; lia]).
  rewrite (Z.mod_small (ac_chan a / 4)) by lia.
  pose proof (Z.mod_pos_bound (ac_chan a) 4 ltac:(lia)) as B2.
  pose proof (Z.div_mod (ac_chan a) 4 ltac:(lia)) as D2.
  assert (C2 : 0 <= n / 2048 < 4) by (split; [apply Z.div_pos; lia|apply Z.div_lt_upper_bound; lia]).
  rewrite (Z.mod_small (n / 2048)) by lia.
  pose proof (Z.mod_pos_bound n 8 ltac:(lia)) as B3. pose proof (Z.div_mod n 8 ltac:(lia)) as D3.
  assert (D4 : n / 2048 = n / 8 / 256) by (rewrite Z.div_div by lia; reflexivity).
  pose proof (Z.mod_pos_bound (n / 8) 256 ltac:(lia)) as B5.
  pose proof (Z.div_mod (n / 8) 256 ltac:(lia)) as D5.
  set (o := ac_object a) in *. set (r := ac_rate a) in *. set (ch := ac_chan a) in *.
  assert (E1 : ((o - 1) * 64 + r * 4 + ch / 4) / 64 = o - 1).
  { symmetry. apply (Z.div_unique_pos _ 64 _ (r * 4 + ch / 4)); lia. }
  assert (E2 : ((o - 1) * 64 + r * 4 + ch / 4) / 4 = (o - 1) * 16 + r).
  { symmetry. apply (Z.div_unique_pos _ 4 _ (ch / 4)); lia. }
  assert (E3 : ((o - 1) * 16 + r) mod 16 = r).
  { symmetry. apply (Z.mod_unique_pos _ 16 (o - 1)); lia. }
  assert (E4 : ((o - 1) * 64 + r * 4 + ch / 4) mod 2 = ch / 4).
  { symmetry. apply (Z.mod_unique_pos _ 2 ((o - 1) * 32 + r * 2)); lia. }
  assert (E5 : (ch mod 4 * 64 + n / 2048) / 64 = ch mod 4).
  { symmetry. apply (Z.div_unique_pos _ 64 _ (n / 2048)); lia. }
  assert (E6 : (ch mod 4 * 64 + n / 2048) mod 4 = n / 2048).
  { symmetry. apply (Z.mod_unique_pos _ 4 (ch mod 4 * 16)); lia. }
  assert (E7 : (n mod 8 * 32 + 31) / 32 = n mod 8).
  { symmetry. apply (Z.div_unique_pos _ 32 _ 31); lia. }
  rewrite E1, E2, E3, E4, E5, E6, E7. f_equal. f_equal; [f_equal; [f_equal|]|]; lia.
Qed.

(* A well formed frame is encoded. *)
Lemma top_encodes tp fr dts last align k l :
  good_frame fr -> good_top align tp k l -> In fr l ->
  (match tp with TVideo v => exists us, nal_frame (vc_nal v) (data_of fr) us | _ => True end) ->
  exists calls, top_frame tp fr dts last = Some calls /\ encodes tp fr (written calls).
Proof.
  intros (G1 & G2 & G3) HT HI HU. unfold top_frame.
  destruct tp as [v|a| |].
  - destruct HU as (us & HU). destruct (aud_full _ _ _ _ HT) as (A1 & A2 & A3).
    destruct HT as (_ & _ & Hn & Hv).
    assert (Hsz : Z.of_nat (vc_nal v) < i_size fr).
    { rewrite <- G2. inversion HU as [E1 E2|h u ll uss Hh HL Hu HN E1 E2].
      - rewrite <- E1 in G2. cbn in G2. lia.
      - rewrite !zlen_app. pose proof (zlen_pos u Hu). pose proof (zlen_ge ll). unfold zlen in *. lia. }
    unfold nal_start. cbn [f_size f_pts f_dts f_header].
    replace ((0 <? i_size fr) && (i_size fr <=? Z.of_nat (vc_nal v))) with false by lia.
    pose proof (pend_start v true (i_size fr) _ us HU) as HP. unfold data_of in HP.
    rewrite <- (app_nil_r (concat (i_chunks fr))) in HP.
    destruct (writes_pend _ _ _ _ _ HP) as (s1 & P & o1 & E1 & EO & HE).
    apply pend_end in HE. subst o1. rewrite app_nil_r in EO. rewrite E1.
    destruct (writes_acc _ _ _ _ _ E1 ltac:(intros C; cbn in C; congruence)) as (P' & EP & _ & Z1 & _).
    assert (P' = P). { clear - EP. revert P' EP. induction P as [|b P IH]; intros [|b' P'] E; cbn in E; try discriminate; [reflexivity|].
      injection E as <- E. f_equal. auto. }
    subst P'. cbn [ns_size] in Z1.
    assert (E3 : exists kz, nal_flush v last s1 = Some (map CWrite [] ++ [CFlush last]) /\ kz = O /\ vc_nal v <> 4%nat \/
                 exists Pz, nal_flush v last s1 = Some (map CWrite Pz ++ [CFlush last]) /\
                   concat Pz = repeat 0 kz /\ vc_nal v = 4%nat /\ Z.of_nat kz = ns_size s1).
    { unfold nal_flush. destruct (vc_nal v =? 4)%nat eqn:E4.
      - apply Nat.eqb_eq in E4. assert (HNu : nal_frame 4 (data_of fr) us) by (rewrite <- E4; exact HU).
        pose proof (units_le v us true _ HNu) as HLe. rewrite G2 in HLe. rewrite EO in HLe.
        replace (ns_size s1 <? 0) with false by lia.
        destruct (zeros_acc (ns_size s1) ltac:(lia)) as (Pz & -> & Fz & Cz).
        exists (Z.to_nat (ns_size s1)). right. exists Pz. split; [reflexivity|]. split; [exact Cz|]. split; [exact E4|lia].
      - exists O. left. apply Nat.eqb_neq in E4. split; [reflexivity|]. split; [reflexivity|exact E4]. }
    assert (E3' : exists kz Pz, nal_flush v last s1 = Some (map CWrite Pz ++ [CFlush last]) /\
                   concat Pz = repeat 0 kz /\ (vc_nal v = 4%nat -> Z.of_nat kz = ns_size s1)).
    { destruct E3 as (kz & [(E & -> & Hne)|(Pz & E & Cz & _ & Hk)]).
      - exists O, []. split; [exact E|]. split; [reflexivity|]. intros; contradiction.
      - exists kz, Pz. auto. }
    clear E3. destruct E3' as (kz & Pz & Ef & Cz & Hk). rewrite Ef.
    eexists. split; [reflexivity|].
    assert (EW : written ((CStart (Frame (dts + i_delay fr) dts
                     (i_size fr + zlen (vc_aud v) + (if i_key fr then zlen (vc_extra v) else 0)) (0 + zlen (vc_aud v)))
                   :: CWrite (vc_aud v) :: (if i_key fr then [CWrite (vc_extra v)] else [])) ++
                  map CWrite P ++ map CWrite Pz ++ [CFlush last]) =
                 vc_aud v ++ (if i_key fr then vc_extra v else []) ++ units_out v true us ++ repeat 0 kz).
    { cbn [app written]. rewrite !written_app, !written_map. cbn [written]. rewrite app_nil_r, EO, Cz.
      destruct (i_key fr); cbn [written]; rewrite ?app_nil_r; reflexivity. }
    rewrite EW. cbn [encodes]. split.
    + intros us' eus HU' HX.
      assert (us' = us).
      { assert (Huniq : forall m l, (1 <= m)%nat -> forall b1 b2, nal_frame m l b1 -> nal_frame m l b2 -> b1 = b2).
        { intros m ll Hm b1. revert ll. induction b1 as [|u1 b1 IH]; intros ll b2 H1 H2.
          - inversion H1; subst. inversion H2 as [|h u l2 b2' Hh]; subst; [reflexivity|].
            destruct h; cbn in *; [lia|discriminate].
          - inversion H1 as [|h1 u1' l1 b1' Hh1 HL1 Hu1 HN1 E1x E2x]; subst.
            inversion H2 as [Enil|h2 u2 l2 b2' Hh2 HL2 Hu2 HN2 E1y E2y].
            + destruct h1; cbn in *; [lia|discriminate].
            + subst.
              assert (Eh : h2 = h1).
              { apply (f_equal (firstn (length h2))) in E1y. rewrite firstn_app_exact in E1y.
                rewrite Hh2, firstn_app_exact in E1y. exact E1y. }
              subst h2. apply app_inv_head in E1y.
              assert (Eu : u2 = u1).
              { apply (f_equal (firstn (length u2))) in E1y. rewrite firstn_app_exact in E1y.
                assert (length u2 = length u1) by (unfold zlen in *; lia).
                rewrite H, firstn_app_exact in E1y. exact E1y. }
              subst u2. apply app_inv_head in E1y. subst l2. f_equal. exact (IH _ _ HN1 HN2). }
        exact (Huniq _ _ (proj1 Hn) _ _ HU' HU). }
      subst us'.
      change ((if vc_mask v =? 31 then [9; 240] else [70; 1; 80]) ::
              (if i_key fr then eus else []) ++ filter (fun u => negb (is_aud v u)) us)
        with ([if vc_mask v =? 31 then [9; 240] else [70; 1; 80]] ++
              (if i_key fr then eus else []) ++ filter (fun u => negb (is_aud v u)) us).
      apply bs_app.
      { destruct Hv as [Hv|Hv]; rewrite Hv; cbn [vc_aud vc_mask avc hevc Z.eqb Pos.eqb].
        - exact (bs_unit 1 [9; 240] [] [] (bs_end 0)).
        - exact (bs_unit 1 [70; 1; 80] [] [] (bs_end 0)). }
      apply bs_app; [destruct (i_key fr); [exact HX|exact (bs_end 0)]|].
      apply bs_units. exact (frame_full _ _ _ HU).
    + intros E4. specialize (Hk E4). rewrite !zlen_app.
      assert (zlen (repeat 0 kz) = Z.of_nat kz) by (unfold zlen; rewrite repeat_length; reflexivity).
      rewrite EO. destruct (i_key fr); cbn [zlen length]; unfold zlen in *; cbn [length] in *; lia.
  - eexists. split; [reflexivity|]. cbn [written]. rewrite written_app, written_map. cbn [written].
    rewrite app_nil_r. destruct HT as (_ & T1 & T2 & T3 & T4).
    rewrite Forall_forall in T4. specialize (T4 _ HI).
    exists (adts a (i_size fr + 7)). split; [reflexivity|].
    rewrite zlen_app. unfold data_of in G2. rewrite G2. change (zlen (adts a (i_size fr + 7))) with 7.
    replace (7 + i_size fr) with (i_size fr + 7) by lia. apply adts_reads; auto. lia.
  - eexists. split; [reflexivity|]. cbn [written]. rewrite written_app, written_map. cbn [written].
    rewrite app_nil_r. reflexivity.
  - eexists. split; [reflexivity|]. cbn [written]. rewrite written_app, written_map. cbn [written].
    rewrite app_nil_r. destruct HT as (_ & _ & T4). rewrite Forall_forall in T4. specialize (T4 _ HI).
    cbn [encodes]. unfold data_of in *. rewrite <- G2 in *. set (d := concat (i_chunks fr)) in *.
    unfold id3_header.
    pose proof (be_synch (zlen d + 1 + 10) ltac:(lia)) as S1. pose proof (be_synch (zlen d + 1) ltac:(lia)) as S2.
    destruct (synchsafe_4 (zlen d + 1 + 10)) as (a & b & c & e & EA).
    destruct (synchsafe_4 (zlen d + 1)) as (a' & b' & c' & e' & EA').
    rewrite EA in *. rewrite EA' in *. cbn [app parse_id3]. rewrite S1, S2.
    replace (zlen d + 1 + 10 =? zlen d + 11) with true by lia. rewrite Z.eqb_refl. reflexivity.
Qed.
