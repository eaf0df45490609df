(* The invariant of an RTMP upstream, and what each event does to the bytes. *)

From Coq Require Import List ZArith Lia Bool Arith Permutation.
From Coq Require Import ZifyBool ZifyNat.
From Verif Require Import BufQueueModel BufQueueSpec BufQueueProofs UpModel UpSpec UpProofs.
Import ListNotations.
Open Scope Z_scope.

Definition inv (size : Z) (u : up) : Prop :=
  bq_alloc_size (u_q u) = size /\ 8 < size /\ all_apart size (held (u_q u)) /\ bq_mem_left (u_q u) <> None /\
  placed size (bq_used (u_q u)) (u_busy u) /\
  ((bq_used (u_q u) = [] /\ u_pos u = 0 /\ u_last u = 0 /\ u_end u = 0) \/
   (exists us n, bq_used (u_q u) = us ++ [n] /\ n + 8 <= u_pos u <= u_last u /\ u_last u <= u_end u /\ u_end u = n + size)) /\
  Forall (fun r => snd r <= u_pos u \/ u_end u <= fst r) (u_busy u).

(* everything that was sent or is to be sent *)
Definition data (u : up) : list Z := u_wire u ++ pending u.

(* the parts that only the outer functions change *)
Definition outer (u : up) := (u_err u, u_none u, u_timer u).

Lemma inv_le size u : inv size u -> u_pos u <= u_last u <= u_end u.
Proof. intros (_ & _ & _ & _ & _ & [(_ & -> & -> & ->)|(us & n & _ & H)] & _); lia. Qed.

Lemma inv_busy size u : inv size u -> Forall (fun r => fst r < snd r) (u_busy u).
Proof.
  intros (_ & _ & _ & _ & P & _). apply Forall_forall. intros r HR. destruct (placed_in _ _ _ _ P HR) as (n & _ & H).
  unfold in_node in H. lia.
Qed.

Lemma append_ok size u : inv size u -> let '(u', ok) := append u in
  inv size u' /\ data u' = data u /\ u_wire u' = u_wire u /\ outer u' = outer u /\ u_done u' = u_done u /\ u_cerr u' = u_cerr u /\
  held (u_q u') = held (u_q u) /\ u_end u' = u_end u /\ u_last u' = u_last u /\
  (ok = true -> u_pos u' = u_last u' /\ flat (u_mem u') (u_busy u') = pending u) /\ (ok = false -> u' = u).
Proof.
  intros I. pose proof (inv_le size u I) as LE. pose proof I as (I1 & I2 & I3 & I4 & I5 & I6 & I7).
  unfold append. destruct (u_last u <=? u_pos u) eqn:C.
  - do 9 (split; [reflexivity || exact I|]). split; [|discriminate]. intros _. split; [lia|].
    unfold pending. rewrite (rd_nil (u_mem u) (u_pos u)) by lia. rewrite app_nil_r. reflexivity.
  - assert (G : forall q free, bq_alloc_size q = bq_alloc_size (u_q u) -> bq_used q = bq_used (u_q u) -> bq_free q = bq_free (u_q u) -> bq_mem_left q <> None ->
      let u' := set_active (set_chains (set_q u q) (u_busy u ++ [(u_pos u, u_last u)]) free (u_wire u)) (u_last u) (u_last u) (u_end u) in
      inv size u' /\ data u' = data u /\ u_wire u' = u_wire u /\ outer u' = outer u /\ u_done u' = u_done u /\ u_cerr u' = u_cerr u /\
      held (u_q u') = held (u_q u) /\ u_end u' = u_end u /\ u_last u' = u_last u /\ (true = true -> u_pos u' = u_last u' /\ flat (u_mem u') (u_busy u') = pending u) /\ (true = false -> u' = u)).
    { intros q free E1 E2 E3 E4 u'. destruct I6 as [(_ & J1 & J2 & J3)|(us & n & J0 & J1 & J2 & J3)]; [lia|].
      assert (EF : flat (u_mem u') (u_busy u') = pending u).
      { change (flat (u_mem u) (u_busy u ++ [(u_pos u, u_last u)]) = pending u). rewrite flat_app. unfold pending. f_equal.
        cbn. apply app_nil_r. }
      split; [|split].
      - unfold inv, u'. cbn [set_active set_chains set_q u_q u_busy u_pos u_last u_end]. unfold held. rewrite E1, E2, E3. fold (held (u_q u)).
        do 4 (split; [assumption|]). split; [|split].
        + rewrite J0 in *. apply placed_range; [exact I5|]. unfold in_node. cbn. lia.
        + right. exists us, n. split; [exact J0|]. lia.
        + apply Forall_app. split; [|constructor; [cbn; lia|constructor]].
          eapply Forall_impl; [|exact I7]. cbn. intros r HR. lia.
      - unfold data. rewrite <- EF. unfold pending. fold (flat (u_mem u') (u_busy u')).
        rewrite (rd_nil (u_mem u') (u_pos u') (u_last u')) by (cbn; lia). rewrite app_nil_r. reflexivity.
      - do 3 (split; [reflexivity|]). split; [reflexivity|]. split; [unfold held; cbn; congruence|]. do 2 (split; [reflexivity|]).
        split; [intros _; split; [reflexivity|exact EF]|discriminate]. }
    destruct (u_free u) as [|x r].
    + destruct (bq_mem_left (u_q u)) as [m|] eqn:EM; [|congruence]. destruct (m <? link_size).
      * do 9 (split; [reflexivity || exact I|]). split; [discriminate|reflexivity].
      * apply G; try reflexivity. discriminate.
    + apply G; try reflexivity. exact I4.
Qed.

Lemma pending_flat u : pending u = flat (u_mem u) (u_busy u) ++ rd (u_mem u) (u_pos u) (u_last u).
Proof. reflexivity. Qed.

Lemma send_ok size u a : inv size u -> exists u' ok, send u a = Some (u', ok) /\
  inv size u' /\ data u' = data u /\ outer u' = outer u /\
  u_pos u' = u_pos u /\ u_last u' = u_last u /\ u_end u' = u_end u /\ u_mem u' = u_mem u /\
  (u_done u' = true -> u_done u = true \/ (u_busy u' = [] /\ u_last u <= u_pos u /\ u_none u = true)) /\
  (forall l, all_apart size (l ++ held (u_q u)) -> all_apart size (l ++ held (u_q u'))) /\
  (forall k, a = Takes k -> ok = true -> zl (flat (u_mem u) (u_busy u)) <= k -> u_busy u' = []) /\
  (exists o, u_wire u' = u_wire u ++ o).
Proof.
  intros I. pose proof I as (I1 & I2 & I3 & I4 & I5 & I6 & I7).
  assert (TRIV : forall ok, (ok = true -> u_busy u = [] \/ a = Idle) ->
    inv size u /\ data u = data u /\ outer u = outer u /\ u_pos u = u_pos u /\ u_last u = u_last u /\ u_end u = u_end u /\ u_mem u = u_mem u /\
    (u_done u = true -> u_done u = true \/ (u_busy u = [] /\ u_last u <= u_pos u /\ u_none u = true)) /\
    (forall l, all_apart size (l ++ held (u_q u)) -> all_apart size (l ++ held (u_q u))) /\
    (forall k, a = Takes k -> ok = true -> zl (flat (u_mem u) (u_busy u)) <= k -> u_busy u = []) /\ (exists o, u_wire u = u_wire u ++ o)).
  { intros ok HOK. split; [exact I|]. do 6 (split; [reflexivity|]). split; [auto|]. split; [auto|]. split.
    - intros k -> HO _. destruct (HOK HO) as [H|H]; [exact H|discriminate].
    - exists []. rewrite app_nil_r. reflexivity. }
  unfold send. destruct (u_cerr u); [do 2 eexists; split; [reflexivity|]; apply TRIV; discriminate|].
  destruct a as [|k|].
  - do 2 eexists; split; [reflexivity|]. apply TRIV. auto.
  - assert (CB : u_busy u = [] \/ u_busy u <> []) by (destruct (u_busy u); [left; reflexivity|right; discriminate]).
    destruct CB as [EB|NB].
    { exists u, true. split; [rewrite EB; reflexivity|]. apply TRIV. auto. }
    assert (MB : forall (A : Type) (x y : A), match u_busy u with [] => x | _ :: _ => y end = y) by (intros; destruct (u_busy u); congruence).
    rewrite MB.
    destruct (send_chain (u_mem u) k (u_busy u)) as [[o s] rest] eqn:ES.
    destruct (send_chain_ok _ _ _ _ _ _ (inv_busy size u I) ES) as (S1 & S2 & S3).
    set (free := rev s ++ u_free u).
    destruct I6 as [(U0 & _)|(us & n & U0 & U1 & U2 & U3)].
    { rewrite U0 in I5. cbn in I5. contradiction. }
    assert (LIM : exists limit a r b, match rest with (p, _) :: _ => Some p | [] => match free with (_, l) :: _ => Some (l - 1) | [] => None end end = Some limit /\
      u_busy u = a ++ r :: b /\ fst r <= limit < snd r /\
      (rest = [] /\ b = [] \/ exists p', rest = (p', snd r) :: b /\ fst r <= p' < snd r)).
    { destruct S2 as [(-> & ->)|(p & l & b & p' & E & -> & HP)].
      - destruct (exists_last (l := u_busy u)) as (a' & (p, l) & E); [exact NB|].
        exists (l - 1), a', (p, l), []. unfold free. rewrite E, rev_app_distr. cbn [rev app]. split; [reflexivity|]. split; [reflexivity|].
        split; [|left; auto]. pose proof (inv_busy size u I) as FB. rewrite E in FB. apply Forall_app in FB as (_ & FB).
        inversion FB as [|? ? F1 _]; subst. cbn in *. lia.
      - exists p', s, (p, l), b. cbn [fst snd]. split; [reflexivity|]. split; [exact E|]. split; [lia|]. right. exists p'. auto. }
    destruct LIM as (limit & a & r & b & -> & EU & HL & HR).
    rewrite EU, <- I1 in I5. rewrite <- I1 in I3.
    destruct (free_ok (u_q u) limit a r b us n) as (q' & rel & us' & F1 & F2 & F3 & F4 & F5 & F6 & F7); [lia|exact I3|exact I4|exact U0|exact I5|exact HL|].
    rewrite F1.
    set (u1 := set_chains (set_q u q') rest free (u_wire u ++ o)).
    assert (PR : placed size (bq_used q') rest).
    { rewrite <- I1. destruct HR as [(-> & _)|(p' & -> & HP)]; [apply placed_nil|]. destruct r as [p l]. cbn [fst snd] in *.
      eapply placed_head; [exact F6|exact HP]. }
    assert (FR : Forall (fun r => snd r <= u_pos u \/ u_end u <= fst r) rest).
    { rewrite EU in I7. apply Forall_app in I7 as (_ & I7). inversion I7 as [|? ? J1 J2]; subst.
      destruct HR as [(-> & _)|(p' & -> & HP)]; [constructor|]. constructor; [cbn in *; lia|exact J2]. }
    assert (I' : inv size u1).
    { unfold inv, u1. cbn [set_chains set_q u_q u_busy u_pos u_last u_end]. split; [congruence|]. split; [exact I2|]. split; [congruence|].
      split; [exact F4|]. split; [exact PR|]. split; [|exact FR]. right. exists us', n. split; [exact F5|]. lia. }
    assert (D' : data u1 = data u).
    { unfold data. rewrite !pending_flat. unfold u1. cbn [set_chains set_q u_wire u_mem u_busy u_pos u_last].
      rewrite <- app_assoc. f_equal. rewrite app_assoc, S1. reflexivity. }
    assert (H' : forall l, all_apart size (l ++ held (u_q u)) -> all_apart size (l ++ held (u_q u1))).
    { intros l AP. unfold u1. cbn [set_chains set_q u_q].
      apply (all_apart_perm _ (l ++ held (u_q u)) (l ++ held q' ++ rel)) in AP; [|apply Permutation_app_head; exact F7].
      rewrite app_assoc in AP. apply all_apart_app in AP. tauto. }
    assert (B' : forall k0, Takes k = Takes k0 -> true = true -> zl (flat (u_mem u) (u_busy u)) <= k0 -> rest = []).
    { intros k0 E _ HK. injection E as <-. apply S3. exact HK. }
    destruct rest as [|r0 rs].
    + destruct (u_none u1 && (u_last u1 <=? u_pos u1)) eqn:DN.
      * do 2 eexists. split; [reflexivity|]. do 7 (split; [assumption || reflexivity|]). split.
        -- intros _. right. split; [reflexivity|]. cbn in DN. split; [lia|]. destruct (u_none u); [reflexivity|discriminate].
        -- split; [exact H'|]. split; [exact B'|]. exists o. reflexivity.
      * do 2 eexists. split; [reflexivity|]. do 7 (split; [assumption || reflexivity|]). split; [auto|].
        split; [exact H'|]. split; [exact B'|]. exists o. reflexivity.
    + do 2 eexists. split; [reflexivity|]. do 7 (split; [assumption || reflexivity|]). split; [auto|].
      split; [exact H'|]. split; [exact B'|]. exists o. reflexivity.
  - assert (CB : u_busy u = [] \/ u_busy u <> []) by (destruct (u_busy u); [left; reflexivity|right; discriminate]).
    destruct CB as [EB|NB].
    { exists u, true. split; [rewrite EB; reflexivity|]. apply TRIV. auto. }
    assert (MB : forall (A : Type) (x y : A), match u_busy u with [] => x | _ :: _ => y end = y) by (intros; destruct (u_busy u); congruence).
    rewrite MB.
    do 2 eexists. split; [reflexivity|]. apply (TRIV false). discriminate.
Qed.

(* bytes are put behind the last one *)
Lemma put_ok size u l : inv size u -> zl l <= u_end u - u_last u ->
  store u (u_last u) l = Some (set_mem u (wr (u_mem u) (u_last u) l)) /\
  let u2 := set_active (set_mem u (wr (u_mem u) (u_last u) l)) (u_pos u) (u_last u + zl l) (u_end u) in
  inv size u2 /\ data u2 = data u ++ l.
Proof.
  intros I HL. pose proof (inv_le size u I) as LE. pose proof I as (I1 & I2 & I3 & I4 & I5 & I6 & I7).
  assert (NN : 0 <= zl l) by (unfold zl; lia).
  split.
  - unfold store. destruct (zl l =? 0) eqn:E; [reflexivity|]. destruct I6 as [(_ & J)|(us & n & J0 & J1 & J2 & J3)]; [lia|].
    rewrite J0, existsb_app. cbn [existsb].
    replace ((node_start n <=? u_last u) && (u_last u + zl l <=? node_end (u_q u) n)) with true
      by (unfold node_start, node_end, node_size; lia).
    rewrite orb_true_r. reflexivity.
  - cbv zeta. split.
    + unfold inv. cbn [set_active set_mem u_q u_busy u_pos u_last u_end]. do 5 (split; [assumption|]). split; [|exact I7].
      destruct I6 as [(J0 & J)|(us & n & J0 & J1 & J2 & J3)]; [left|right; exists us, n]; (split; [exact J0|]; lia).
    + unfold data. rewrite !pending_flat. cbn [set_active set_mem u_wire u_mem u_busy u_pos u_last].
      rewrite (rd_app _ (u_pos u) (u_last u)) by lia. rewrite rd_wr, rd_wr_other by lia.
      replace (flat (wr (u_mem u) (u_last u) l) (u_busy u)) with (flat (u_mem u) (u_busy u)); [rewrite !app_assoc; reflexivity|].
      apply flat_ext. intros r x HR HX. rewrite Forall_forall in I7. specialize (I7 r HR).
      unfold wr. replace ((u_last u <=? x) && (x <? u_last u + zl l)) with false by lia. reflexivity.
Qed.

(* a new buffer becomes the active one *)
Lemma activate_ok size u q n : inv size u -> u_pos u = u_last u -> bq_used q = bq_used (u_q u) ++ [n] ->
  bq_alloc_size q = bq_alloc_size (u_q u) -> bq_mem_left q <> None -> all_apart size (held q) ->
  forall u', u_q u' = q -> u_mem u' = u_mem u -> u_busy u' = u_busy u -> u_pos u' = n + 8 -> u_last u' = n + 8 -> u_end u' = n + 8 + (size - 8) -> u_wire u' = u_wire u ->
  inv size u' /\ data u' = data u.
Proof.
  intros I PL HU HA HM AP u' E1 E2 E3 E4 E5 E6 E7. pose proof I as (I1 & I2 & I3 & I4 & I5 & I6 & I7). split.
  - unfold inv. rewrite E1, E3, E4, E5, E6. split; [congruence|]. split; [exact I2|]. split; [exact AP|]. split; [exact HM|].
    split; [rewrite HU; apply placed_node; exact I5|]. split.
    + right. exists (bq_used (u_q u)), n. split; [exact HU|]. lia.
    + apply Forall_forall. intros r HR. destruct (placed_in _ _ _ _ I5 HR) as (m & M1 & M2).
      unfold held in AP. rewrite HU in AP. apply all_apart_app in AP as (AP & _). apply all_apart_app in AP as (_ & _ & AP).
      specialize (AP m n M1 (or_introl eq_refl)). unfold apart, in_node in *. lia.
  - unfold data. rewrite !pending_flat. rewrite E2, E3, E4, E5, E7. rewrite !rd_nil by lia. reflexivity.
Qed.
