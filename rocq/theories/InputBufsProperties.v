(* The properties of the input buffers (C26, C47). *)
From Coq Require Import ZArith List Bool Lia Permutation.
From Verif Require Import BufQueueModel BufQueueSpec InputBufsModel InputBufsSpec
  InputBufsProofs InputBufsProofs2 InputBufsProofs3 InputBufsProofs4.
Import ListNotations.
Open Scope Z_scope.

(* C26: in any execution, while a reader holds a lock, whatever other locks are
   taken or dropped, whatever is written, freed or linked, and even when the
   track or the channel goes away: the object exists, the buffer with the
   locked address and all buffers after it stay in use in the same order, and
   none of them is given back. *)
Theorem C26_locked_stays : forall kind w hs got back h w' hs' rel,
  reach kind w hs got back ->
  while_held h w hs w' hs' rel ->
  exists b b' i j new,
    find_bufs w (h_bufs h) = Some b /\ find_bufs w' (h_bufs h) = Some b' /\
    at_buffer (b_q b) i (h_ptr h) /\ at_buffer (b_q b') j (h_ptr h) /\
    skipn j (bq_used (b_q b')) = skipn i (bq_used (b_q b)) ++ new /\
    forall n, In n (skipn i (bq_used (b_q b))) -> ~ In n rel.
Proof.
  intros kind w hs got back h w' hs' rel R W.
  destruct (while_held_inv _ _ _ _ _ _ (reach_ginv _ _ _ _ _ R) W) as (_ & _ & _ & H). exact H.
Qed.
Print Assumptions C26_locked_stays.

(* C26: a lock on data that is there is granted when memory allows. *)
Theorem C26_lock_granted : forall w hs t index p,
  allowed w hs (OLock t index p true) ->
  exists w' id, step w (OLock t index p true) = Done w' (RLock id) [].
Proof. exact lock_granted. Qed.
Print Assumptions C26_lock_granted.

(* C26: every buffer got from the allocator is either held, once, or was given
   back, as often as it was got. *)
Theorem C26_released_once : forall kind w hs got back,
  reach kind w hs got back ->
  Permutation got (back ++ all_held w) /\ NoDup (all_held w).
Proof.
  intros kind w hs got back R. split; [exact (reach_balance _ _ _ _ _ R)|].
  exact (nodup_held _ _ (reach_ginv _ _ _ _ _ R)).
Qed.
Print Assumptions C26_released_once.

(* C26: an object exists exactly as long as a track or a lock uses it; when no
   track and no lock is left, every buffer was given back exactly once. *)
Theorem C26_lifetime : forall kind w hs got back,
  reach kind w hs got back ->
  (forall i, find_bufs w i <> None <-> (0 < users w hs i)%nat) /\
  (w_tracks w = [] -> hs = [] -> w_bufs w = [] /\ Permutation got back).
Proof.
  intros kind w hs got back R. pose proof (reach_ginv _ _ _ _ _ R) as G. split.
  - intros i. apply lifetime, G.
  - intros T ->. pose proof (nothing_left w G T) as E. split; [exact E|].
    pose proof (reach_balance _ _ _ _ _ R) as P. unfold all_held in P. rewrite E in P.
    cbn in P. rewrite app_nil_r in P. exact P.
Qed.
Print Assumptions C26_lifetime.

(* C26: and not more is kept than needed: when the first segment in use is set,
   the oldest buffer kept has the start of that segment or of an older segment
   that is locked. *)
Theorem C26_frees : forall kind w hs got back t index p w' r rel i b',
  reach kind w hs got back -> allowed w hs (OSetMin t index p) -> 0 < index ->
  step w (OSetMin t index p) = Done w' r rel ->
  find_track w t = Some i -> find_bufs w' i = Some b' -> b_no_partial b' = false ->
  at_buffer (b_q b') 0 p \/
  exists h, In h hs /\ h_bufs h = i /\ h_index h < index /\ at_buffer (b_q b') 0 (h_ptr h).
Proof.
  intros kind w hs got back t index p w' r rel i b' R. apply freed, (reach_ginv _ _ _ _ _ R).
Qed.
Print Assumptions C26_frees.

(* C26: the calls have no undefined behaviour, except reading a new buffer for
   a track whose queue was detached from its budget... *)
Theorem C26_defined : forall kind w hs got back o,
  reach kind w hs got back -> allowed w hs o ->
  step w o = UB ->
  exists t r i b, o = OGet t r /\ find_track w t = Some i /\ find_bufs w i = Some b /\
    bq_mem_left (b_q b) = None.
Proof.
  intros kind w hs got back o R A U.
  destruct (step_defined w hs o (reach_ginv _ _ _ _ _ R) A)
    as [(w' & r & rel & S)|(t & r & i & b & E1 & E2 & E3 & E4 & _)]; [congruence|].
  exists t, r, i, b. auto.
Qed.
Print Assumptions C26_defined.

(* ...which does not happen unless tracks are linked or channels are freed. *)
Theorem C26_plain_defined : forall w hs got back o,
  reach plain w hs got back -> allowed w hs o -> step w o <> UB.
Proof.
  intros w hs got back o R A U. pose proof (reach_ginv _ _ _ _ _ R) as G.
  destruct (step_defined w hs o G A)
    as [(w' & r & rel & S)|(t & r & i & b & _ & E2 & E3 & E4 & _)]; [congruence|].
  destruct (find_bufs_in _ _ _ E3) as (Ib & Eb). apply find_track_in in E2.
  destruct (reach_pinv _ _ _ _ R b Ib) as (_ & P). apply P; [|exact E4].
  unfold tcount. destruct (filter (fun x => Nat.eqb (snd x) (b_id b)) (w_tracks w)) eqn:E; [|cbn; lia].
  exfalso. assert (X : In (t, i) (filter (fun x => Nat.eqb (snd x) (b_id b)) (w_tracks w))).
  { apply filter_In. split; [exact E2|]. cbn. rewrite Eb. apply Nat.eqb_refl. }
  rewrite E in X. destruct X.
Qed.
Print Assumptions C26_plain_defined.

(* C47: data stored through read_chain comes back: the pieces make up the data,
   each fits its buffer, and their buffers are the newest ones of the track, in
   order. *)
Theorem C47_read_chain : forall fuel w t answers data w' chain i b,
  find_track w t = Some i -> find_bufs w i = Some b ->
  read_chain fuel w t answers data = Some (w', Some chain) ->
  concat (map snd chain) = data /\
  exists b', find_bufs w' i = Some b' /\ bq_alloc_size (b_q b') = bq_alloc_size (b_q b) /\
    bq_used (b_q b') = bq_used (b_q b) ++ map (fun x => fst x - 8) chain /\
    Forall (fun x => (length (snd x) <= Z.to_nat (bq_alloc_size (b_q b) - 8))%nat) chain.
Proof. exact read_chain_ok. Qed.
Print Assumptions C47_read_chain.

(* C47: and it always ends. *)
Theorem C47_read_chain_ends : forall w t answers data i b,
  find_track w t = Some i -> find_bufs w i = Some b ->
  8 < bq_alloc_size (b_q b) -> bq_mem_left (b_q b) <> None ->
  read_chain (S (length data)) w t answers data <> None.
Proof.
  intros w t answers data i b Ft Fb Sz M.
  apply (read_chain_total _ w t answers data i b Ft Fb Sz M). lia.
Qed.
Print Assumptions C47_read_chain_ends.

(* ---- examples ---- *)
Definition next (w : world) (o : op) : world :=
  match step w o with Done w' _ _ => w' | UB => w end.
Definition after (l : list op) : world := fold_left next l world0.

Definition ex_ops : list op :=
  [OTrack 1 0 108 0 10000 true; OGet 1 (Some 1000); OGet 1 (Some 2000); OGet 1 (Some 3000);
   OLock 1 5 1020 true; OLock 1 7 2050 true; OSetMin 1 8 3008;
   OUnlock 1; OTrackFree 1; OUnlock 2].

Lemma reach_step' kind w hs got back o w' r rel hs' got' back' :
  reach kind w hs got back -> kind o -> allowed w hs o ->
  step w o = Done w' r rel -> holds_after w hs o r hs' ->
  got' = got ++ acquired w w' -> back' = back ++ rel ->
  reach kind w' hs' got' back'.
Proof. intros R K A S H -> ->. exact (reach_step _ _ _ _ _ _ _ _ _ _ R K A S H). Qed.

Definition ex_h1 : hold := mkHold 1 0 5 1020.
Definition ex_h2 : hold := mkHold 2 0 7 2050.

Ltac place :=
  match goal with
  | |- live _ ?p => first [exists 0%nat; place | exists 1%nat; place | exists 2%nat; place]
  | |- at_buffer _ _ _ => eexists; split; [vm_compute; reflexivity|vm_compute; split; [discriminate|reflexivity]]
  | |- not_after _ _ _ =>
      first [exists 0%nat, 1%nat; split; [lia|split; place] | exists 0%nat, 2%nat; split; [lia|split; place]
            | exists 1%nat, 2%nat; split; [lia|split; place]]
  end.

Lemma ex_reach : reach plain (after (firstn 7 ex_ops)) [ex_h2; ex_h1] [1000; 2000; 3000] [].
Proof.
  eapply (reach_step' plain (after (firstn 6 ex_ops)) [ex_h2; ex_h1] [1000; 2000; 3000] [] (OSetMin 1 8 3008));
    [|exact Logic.I| |vm_compute; reflexivity|apply after_other; discriminate|vm_compute; reflexivity|reflexivity].
  2:{ exists 0%nat. eexists. split; [vm_compute; reflexivity|]. split; [vm_compute; reflexivity|].
      split; [place|]. intros _ l [<-|[<-|[]]]; (split; [intros _; place|split; intros X; vm_compute in X; discriminate]). }
  eapply (reach_step' plain (after (firstn 5 ex_ops)) [ex_h1] [1000; 2000; 3000] [] (OLock 1 7 2050 true));
    [|exact Logic.I| |vm_compute; reflexivity|apply after_lock; vm_compute; reflexivity|vm_compute; reflexivity|reflexivity].
  2:{ exists 0%nat. eexists. split; [vm_compute; reflexivity|]. split; [vm_compute; reflexivity|].
      split; [split; [place|]|].
      - intros _ l [<-|[]]; (split; [intros _; place|split; intros X; vm_compute in X; discriminate]).
      - intros _ X. vm_compute in X. discriminate. }
  eapply (reach_step' plain (after (firstn 4 ex_ops)) [] [1000; 2000; 3000] [] (OLock 1 5 1020 true));
    [|exact Logic.I| |vm_compute; reflexivity|apply after_lock; vm_compute; reflexivity|vm_compute; reflexivity|reflexivity].
  2:{ exists 0%nat. eexists. split; [vm_compute; reflexivity|]. split; [vm_compute; reflexivity|].
      split; [split; [place|]|].
      - intros _ l [].
      - intros _ X. vm_compute in X. discriminate. }
  eapply (reach_step' plain (after (firstn 3 ex_ops)) [] [1000; 2000] [] (OGet 1 (Some 3000)));
    [|exact Logic.I| |vm_compute; reflexivity|apply after_other; discriminate|vm_compute; reflexivity|reflexivity].
  2:{ exists 0%nat. eexists. split; [vm_compute; reflexivity|]. split; [vm_compute; reflexivity|].
      intros a [= <-] b n [<-|[]] [<-|[<-|[]]]; left; vm_compute; discriminate. }
  eapply (reach_step' plain (after (firstn 2 ex_ops)) [] [1000] [] (OGet 1 (Some 2000)));
    [|exact Logic.I| |vm_compute; reflexivity|apply after_other; discriminate|vm_compute; reflexivity|reflexivity].
  2:{ exists 0%nat. eexists. split; [vm_compute; reflexivity|]. split; [vm_compute; reflexivity|].
      intros a [= <-] b n [<-|[]] [<-|[]]; left; vm_compute; discriminate. }
  eapply (reach_step' plain (after (firstn 1 ex_ops)) [] [] [] (OGet 1 (Some 1000)));
    [|exact Logic.I| |vm_compute; reflexivity|apply after_other; discriminate|vm_compute; reflexivity|reflexivity].
  2:{ exists 0%nat. eexists. split; [vm_compute; reflexivity|]. split; [vm_compute; reflexivity|].
      intros a [= <-] b n [<-|[]] []. }
  eapply (reach_step' plain world0 [] [] [] (OTrack 1 0 108 0 10000 true));
    [apply reach_init|exact Logic.I|reflexivity|vm_compute; reflexivity|apply after_other; discriminate|vm_compute; reflexivity|reflexivity].
Qed.

(* Two readers hold segments 5 and 7 while segment 8 is the first one in use;
   nothing was freed.  The first reader leaves, then the track goes, then the
   second reader leaves. *)
Example C26_ex :
  reach plain (after (firstn 7 ex_ops)) [ex_h2; ex_h1] [1000; 2000; 3000] [] /\
  (exists w', while_held ex_h2 (after (firstn 7 ex_ops)) [ex_h2; ex_h1] w' [ex_h2] [1000]
     /\ w_tracks w' = []) /\
  step (after (firstn 9 ex_ops)) (OUnlock 2) = Done (mkWorld [] [] 3) RNone [2000; 3000].
Proof.
  split; [exact ex_reach|]. split; [|vm_compute; reflexivity].
  exists (after (firstn 9 ex_ops)). split; [|vm_compute; reflexivity].
  change [1000] with ([1000] ++ [] : list Z).
  refine (held_step ex_h2 _ _ (after (firstn 8 ex_ops)) [ex_h2] [1000] (OTrackFree 1) _ RNone [] [ex_h2]
            _ Logic.I _ _ (or_introl eq_refl)).
  2:{ vm_compute; reflexivity. }
  2:{ apply after_other; discriminate. }
  change [1000] with ([] ++ [1000] : list Z).
  refine (held_step ex_h2 _ _ (after (firstn 7 ex_ops)) [ex_h2; ex_h1] [] (OUnlock 1) _ RNone [1000] [ex_h2]
            _ _ _ _ (or_introl eq_refl)).
  - apply held_now. left; reflexivity.
  - exists ex_h1. split; [right; left; reflexivity|reflexivity].
  - vm_compute; reflexivity.
  - apply (after_unlock _ _ 1%nat RNone [ex_h2] ex_h1 []); reflexivity.
Qed.

Example C47_ex :
  exists w', read_chain 4 (after (firstn 1 ex_ops)) 1 [Some 1000; Some 2000]
    (map Z.of_nat (seq 0 150)) =
    Some (w', Some [(1008, map Z.of_nat (seq 0 100)); (2008, map Z.of_nat (seq 100 50))]).
Proof. eexists. vm_compute. reflexivity. Qed.

(* C26, not true of the code: a track whose buffers another track was linked to
   can go on reading after the other track is freed.  Freeing the linked track
   detaches the shared queue from its budget, and the next buffer is read
   through a null pointer (ngx_live_filler.c:1049 links the tracks of a playing
   channel to those of its filler channel). *)
Definition ex_link : list op :=
  [OTrack 1 0 108 0 10000 true; OTrack 2 1 108 0 10000 true; OLink 2 1; OTrackFree 2].

Theorem C26_linked_get_refuted :
  exists w hs got back o,
    reach any w hs got back /\ allowed w hs o /\ find_track w 1 <> None /\
    o = OGet 1 (Some 1000) /\ step w o = UB.
Proof.
  exists (after ex_link), [], [], [], (OGet 1 (Some 1000)).
  split; [|split; [|split; [vm_compute; discriminate|split; [reflexivity|vm_compute; reflexivity]]]].
  - eapply (reach_step' any (after (firstn 3 ex_link)) [] [] [] (OTrackFree 2));
      [|exact Logic.I|exact Logic.I|vm_compute; reflexivity|apply after_other; discriminate|vm_compute; reflexivity|reflexivity].
    eapply (reach_step' any (after (firstn 2 ex_link)) [] [] [] (OLink 2 1));
      [|exact Logic.I| |vm_compute; reflexivity|apply after_other; discriminate|vm_compute; reflexivity|reflexivity].
    2:{ split; [discriminate|]. split; vm_compute; discriminate. }
    eapply (reach_step' any (after (firstn 1 ex_link)) [] [] [] (OTrack 2 1 108 0 10000 true));
      [|exact Logic.I|reflexivity|vm_compute; reflexivity|apply after_other; discriminate|vm_compute; reflexivity|reflexivity].
    eapply (reach_step' any world0 [] [] [] (OTrack 1 0 108 0 10000 true));
      [apply reach_init|exact Logic.I|reflexivity|vm_compute; reflexivity|apply after_other; discriminate|vm_compute; reflexivity|reflexivity].
  - exists 0%nat. eexists. split; [vm_compute; reflexivity|]. split; [vm_compute; reflexivity|].
    intros a [= <-] b n [<-|[]] [].
Qed.
Print Assumptions C26_linked_get_refuted.
