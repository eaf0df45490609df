(* C11 - C14: block pools and block strings, for every history of calls. *)
From Coq Require Import List Arith Lia Bool.
From Verif Require Import Lists BlockPoolModel BlockPoolSpec BlockPoolProofs.
Import ListNotations.

(* C11.  What users hold is distinct, does not overlap and lies in memory the
   pool obtained. *)
Theorem C11_live_distinct : forall page limit sizes p m g,
  0 < page -> reach page limit sizes p m g ->
  NoDup (g_live g) /\
  (forall x y, In x (g_live g) -> In y (g_live g) -> x <> y -> disjoint_items sizes x y) /\
  (forall x, In x (g_live g) -> in_region sizes g x).
Proof. exact live_ok. Qed.
Print Assumptions C11_live_distinct.

(* An allocation returns the item given back longest ago, and takes memory only
   if there is none; what it returns is held by nobody.  It fails only when the
   index is wrong, or nothing was given back and there is no memory. *)
Theorem C11_alloc : forall page limit sizes p m g i ok r p',
  0 < page -> reach page limit sizes p m g ->
  pool_alloc p m i ok = (r, p') ->
  match r with
  | Some a =>
      (forall j, ~ In (j, a) (g_live g)) /\
      match g_free g i with
      | x :: _ => a = x /\ pl_limit p' = pl_limit p
      | [] => forall j, ~ In a (g_free g j)
      end
  | None =>
      p' = p /\
      (length sizes <= i \/
       (g_free g i = [] /\
        (pl_limit p < sl_alloc (init_slot page (nth i sizes 0)) \/ ok = false)))
  end.
Proof. exact alloc_ok. Qed.
Print Assumptions C11_alloc.

(* The memory taken and the budget left add up to the configured limit. *)
Theorem C11_memory_limit : forall page limit sizes p m g,
  0 < page -> reach page limit sizes p m g -> pl_limit p + sum (g_regions g) = limit.
Proof. exact memory_ok. Qed.
Print Assumptions C11_memory_limit.

Definition mem0 : mem := mk_mem (fun _ => WNull) (fun _ => []).

(* two slots; two items taken, one given back and taken again *)
Example C11_case :
  let '(a1, p1) := pool_alloc (pool_create 64 128 [16; 24]) mem0 0 true in
  let '(a2, p2) := pool_alloc p1 mem0 0 true in
  let '(p3, m3) := pool_free p2 mem0 0 (0, 0) in
  let '(a4, p4) := pool_alloc p3 m3 0 true in
  (a1, a2, a4, fst (pool_alloc p4 m3 1 true), pl_limit p4)
  = (Some (0, 0), Some (0, 16), Some (0, 0), None, 64).
Proof. vm_compute. reflexivity. Qed.

Example C11_reach_case : exists p m g,
  reach 64 128 [16; 24] p m g /\ length (g_live g) = 2 /\ g_free g 0 = [(0, 0)].
Proof.
  pose proof (r_init 64 128 [16; 24] mem0) as R0.
  pose proof (r_alloc _ _ _ _ _ _ 0 true _ _ R0 eq_refl) as R1. vm_compute in R1.
  pose proof (r_alloc _ _ _ _ _ _ 0 true _ _ R1 eq_refl) as R2. vm_compute in R2.
  pose proof (r_alloc _ _ _ _ _ _ 0 true _ _ R2 eq_refl) as R3. vm_compute in R3.
  do 3 eexists. split; [eapply r_free with (i := 0) (a := (0, 0))|].
  - exact R3.
  - cbn. auto.
  - reflexivity.
  - split; reflexivity.
Qed.

(* C12.  An automatic allocation takes an item of the smallest size that holds
   the bytes and the four byte header, and records its slot in the header. *)
Theorem C12_smallest_fit : forall page limit sizes p m g size ok r p' m',
  0 < page -> sorted sizes -> reach page limit sizes p m g ->
  auto_alloc p m size ok = (r, p', m') ->
  match r with
  | Some a => exists i,
      m' = set_word m a (WInt i) /\ i < length sizes /\
      size + 4 <= item_size sizes i /\
      (forall j, j < length sizes -> size + 4 <= item_size sizes j ->
         item_size sizes i <= item_size sizes j) /\
      (exists p1, pool_alloc p m i ok = (Some a, p1) /\ pl_limit p1 = pl_limit p')
  | None =>
      p' = p /\ m' = m /\
      ((forall j, j < length sizes -> item_size sizes j < size + 4) \/
       exists i, i < length sizes /\ size + 4 <= item_size sizes i /\
         (forall j, j < length sizes -> size + 4 <= item_size sizes j ->
            item_size sizes i <= item_size sizes j) /\
         pool_alloc p m i ok = (None, p))
  end.
Proof. exact auto_alloc_ok. Qed.
Print Assumptions C12_smallest_fit.

(* Freeing an automatic allocation after any further history gives the item back
   to the slot it was taken from: the next allocations of that slot, once those
   given back before are used up, return it. *)
Theorem C12_freed_to_its_slot : forall page limit sizes p m g i a,
  0 < page -> reach page limit sizes p m g ->
  In (i, a) (g_live g) -> m_word m a = WInt i ->
  exists p' m', auto_free p m a = Some (p', m') /\
    reach page limit sizes p' m' (live_free g i [a]) /\
    In a (g_free (live_free g i [a]) i).
Proof.
  intros page limit sizes p m g i a Hp Hr Hl Hw. unfold auto_free. rewrite Hw.
  destruct (pool_free p m i a) as [p' m'] eqn:E. exists p', m'. split; [reflexivity|].
  split; [eapply r_free; eassumption|]. cbn. rewrite Nat.eqb_refl. apply in_or_app. right. left. reflexivity.
Qed.
Print Assumptions C12_freed_to_its_slot.

Example C12_case :
  let '(a, p, m) := auto_alloc (pool_create 64 4096 [16; 32; 64]) mem0 20 true in
  (a, m_word m (0, 0), match auto_free p m (0, 0) with Some _ => true | None => false end)
  = (Some (0, 0), WInt 1, true).
Proof. vm_compute. reflexivity. Qed.

Example C12_too_big :
  fst (fst (auto_alloc (pool_create 64 4096 [16; 32; 64]) mem0 61 true)) = None /\
  fst (fst (auto_alloc (pool_create 64 4096 [16; 32; 64]) mem0 60 true)) = Some (0, 0).
Proof. split; vm_compute; reflexivity. Qed.

Example C12_sorted_case : sorted [16; 32; 64].
Proof.
  intros j k [H1 H2]. cbn in H2.
  destruct k as [|[|[|k]]]; [| | |lia]; destruct j as [|[|[|j]]]; cbn; lia.
Qed.

(* C13.  Setting a string either fails and changes no string, or succeeds and
   from then on copying the string out returns the bytes given; no other string
   changes.  The string may have held anything before. *)
Theorem C13_set_copy : forall page limit sizes p m g i oks dest dnodes dsrc src,
  0 < page -> reach page limit sizes p m g -> holds m g i dest dnodes dsrc ->
  match bstr_set p m i oks dest src with
  | BOk (p', m', s) => exists g' nodes,
      reach page limit sizes p' m' g' /\
      holds m' g' i s nodes src /\ bstr_copy m' s = BOk src /\
      (forall j s2 nodes2 src2, holds m g j s2 nodes2 src2 ->
         (forall a, In a nodes2 -> ~ In a dnodes) ->
         holds m' g' j s2 nodes2 src2 /\ bstr_copy m' s2 = BOk src2 /\
         (forall a, In a nodes2 -> ~ In a nodes))
  | BErr p' m' => exists g',
      reach page limit sizes p' m' g' /\
      (forall j s2 nodes2 src2, holds m g j s2 nodes2 src2 ->
         holds m' g' j s2 nodes2 src2 /\ bstr_copy m' s2 = BOk src2)
  | BUB | BFuel => False
  end.
Proof.
  intros page limit sizes p m g i oks dest dnodes dsrc src Hp Hr Hd.
  pose proof (set_ok page limit sizes p m g i oks dest dnodes dsrc src Hp Hr Hd) as H.
  destruct (bstr_set p m i oks dest src) as [[[p' m'] s]|p' m'| |]; try exact H.
  - destruct H as (g' & nodes & H1 & H2 & H3). exists g', nodes.
    split; [exact H1|]. split; [exact H2|]. split; [eapply holds_copy; exact H2|].
    intros j s2 nodes2 src2 G1 G2. destruct (H3 j s2 nodes2 src2 G1 G2) as [K1 K2].
    split; [exact K1|]. split; [eapply holds_copy; exact K1|exact K2].
  - destruct H as (g' & H1 & H2). exists g'. split; [exact H1|].
    intros j s2 nodes2 src2 G1. pose proof (H2 j s2 nodes2 src2 G1) as K1.
    split; [exact K1|]. eapply holds_copy; exact K1.
Qed.
Print Assumptions C13_set_copy.

(* a new string holds nothing *)
Theorem C13_empty : forall m g i n, holds m g i (mk_bstr None 0 n) [] [].
Proof.
  intros. unfold holds. cbn. split; [reflexivity|]. split; [congruence|]. split; [reflexivity|].
  split; [exact I|]. split; [constructor|]. split; [constructor|reflexivity].
Qed.
Print Assumptions C13_empty.

Definition empty_str : bstr := mk_bstr None 0 0.

Example C13_case :
  match bstr_set (pool_create 64 128 [12]) mem0 0 (fun _ => true) empty_str
          [1;2;3;4;5;6;7;8;9] with
  | BOk (p, m, s) => bstr_copy m s
  | _ => BUB
  end = BOk [1;2;3;4;5;6;7;8;9].
Proof. vm_compute. reflexivity. Qed.

(* C14.  Freeing a string gives back its first block, and nothing else: the loop
   reads the link to the next block after the pool has overwritten it. *)
Theorem C14_frees_only_first : forall page limit sizes p m g i s h r src,
  0 < page -> reach page limit sizes p m g -> holds m g i s (h :: r) src ->
  exists p' m', bstr_free_data (S (bs_len s)) p m i (bs_data s) = Some (p', m') /\
    (p', m') = pool_free p m i h /\
    reach page limit sizes p' m' (live_free g i [h]).
Proof. exact free_first. Qed.
Print Assumptions C14_frees_only_first.

(* So every block is given back if there is at most one.  Missing: strings of
   two blocks or more, for which it is false, below. *)
Theorem C14_free_all_partial : forall page limit sizes p m g i s nodes src,
  0 < page -> reach page limit sizes p m g -> holds m g i s nodes src ->
  length nodes <= 1 ->
  exists p' m' g', bstr_free_data (S (bs_len s)) p m i (bs_data s) = Some (p', m') /\
    reach page limit sizes p' m' g' /\ gave_back g g' i nodes.
Proof.
  intros page limit sizes p m g i s nodes src Hp Hr Hh Hl.
  destruct nodes as [|h [|x r]]; [| |cbn in Hl; lia].
  - destruct Hh as (_ & _ & -> & _). exists p, m, g. split; [reflexivity|]. split; [exact Hr|].
    intros a [].
  - destruct (free_first _ _ _ _ _ _ _ _ _ _ _ Hp Hr Hh) as (p' & m' & H1 & _ & H3).
    exists p', m', (live_free g i [h]). split; [exact H1|]. split; [exact H3|].
    intros a [<-|[]]. split.
    + rewrite live_free_in. cbn. tauto.
    + cbn. rewrite Nat.eqb_refl. apply in_or_app. right. left. reflexivity.
Qed.
Print Assumptions C14_free_all_partial.

(* For a longer string the other blocks are neither held by a string nor given
   back, whatever the string. *)
Theorem C14_free_all_refuted : forall page limit sizes p m g i s h x r src,
  0 < page -> reach page limit sizes p m g -> holds m g i s (h :: x :: r) src ->
  exists p' m' g', bstr_free_data (S (bs_len s)) p m i (bs_data s) = Some (p', m') /\
    reach page limit sizes p' m' g' /\ ~ gave_back g g' i (h :: x :: r) /\
    forall a, In a (x :: r) -> In (i, a) (g_live g') /\ ~ In a (g_free g' i).
Proof.
  intros page limit sizes p m g i s h x r src Hp Hr Hh.
  destruct (free_first _ _ _ _ _ _ _ _ _ _ _ Hp Hr Hh) as (p' & m' & H1 & _ & H3).
  exists p', m', (live_free g i [h]). split; [exact H1|]. split; [exact H3|].
  assert (K : forall a, In a (x :: r) -> In (i, a) (g_live (live_free g i [h])) /\
                        ~ In a (g_free (live_free g i [h]) i)).
  { intros a Ha. destruct Hh as (_ & _ & _ & _ & Hnd & Hl & _). rewrite Forall_forall in Hl.
    apply NoDup_cons_iff in Hnd. destruct Hnd as [Hnd _].
    assert (Hla : In (i, a) (g_live (live_free g i [h]))).
    { apply live_free_in. split; [apply Hl; right; exact Ha|]. intros [_ [<-|[]]]. exact (Hnd Ha). }
    split; [exact Hla|].
    destruct (reach_inv _ _ _ _ _ _ Hp H3) as [o Hi]. exact (i_disj _ _ _ _ _ _ _ Hi i a Hla). }
  split; [|exact K]. intros Hg. destruct (Hg x) as [Hn _]; [right; left; reflexivity|].
  apply Hn. apply K. left. reflexivity.
Qed.
Print Assumptions C14_free_all_refuted.

(* A pool with room for four blocks; one string of two blocks set again and
   again runs out of memory at the third time. *)
Example C14_exhaustion :
  let set p m s := bstr_set p m 0 (fun _ => true) s [1;2;3;4;5;6;7;8;9] in
  match set (pool_create 64 64 [16]) mem0 empty_str with
  | BOk (p1, m1, s1) =>
      match set p1 m1 s1 with
      | BOk (p2, m2, s2) =>
          match set p2 m2 s2 with BErr _ _ => true | _ => false end
      | _ => false
      end
  | _ => false
  end = true.
Proof. vm_compute. reflexivity. Qed.
