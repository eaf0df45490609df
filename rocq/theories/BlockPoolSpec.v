(* Specification side of the block pool: histories of calls, with the sets of
   items a user holds and has given back, and the regions the pool obtained. *)
From Coq Require Import List Arith Bool.
From Verif Require Import Lists BlockPoolModel.
Import ListNotations.

Record ghost := mk_ghost {
  g_live : list (nat * addr);      (* slot number and address, held by users *)
  g_free : nat -> list addr;       (* per slot, given back, oldest first *)
  g_regions : list nat             (* sizes of the regions taken, in order *)
}.

Definition item_eqb (x y : nat * addr) : bool :=
  (fst x =? fst y) && addr_eqb (snd x) (snd y).

Definition live_add (g : ghost) (i : nat) (a : addr) (region : list nat) : ghost :=
  mk_ghost ((i, a) :: g_live g)
    (fun j => if i =? j then filter (fun b => negb (addr_eqb a b)) (g_free g j)
              else g_free g j)
    (g_regions g ++ region).

Definition live_free (g : ghost) (i : nat) (l : list addr) : ghost :=
  mk_ghost (filter (fun x => negb (existsb (fun a => item_eqb (i, a) x) l)) (g_live g))
    (fun j => if i =? j then g_free g j ++ l else g_free g j)
    (g_regions g).

(* the region, if any, that a call took: the memory budget went down by its size *)
Definition region_taken (p p' : pool) : list nat :=
  if pl_chunks p =? pl_chunks p' then [] else [pl_limit p - pl_limit p'].

(* the items of [l] are linked through their first words, the last one to NULL *)
Fixpoint linked (m : mem) (l : list addr) : Prop :=
  match l with
  | [] => True
  | [x] => m_word m x = WNull
  | x :: (y :: _) as r => m_word m x = WPtr y /\ linked m r
  end.

(* All histories.  A user frees only what they hold, with the slot they got it
   from, and writes only to what they hold. *)
Inductive reach (page limit : nat) (sizes : list nat) : pool -> mem -> ghost -> Prop :=
| r_init : forall m,
    reach page limit sizes (pool_create page limit sizes) m
      (mk_ghost [] (fun _ => []) [])
| r_alloc : forall p m g i ok a p',
    reach page limit sizes p m g ->
    pool_alloc p m i ok = (Some a, p') ->
    reach page limit sizes p' m (live_add g i a (region_taken p p'))
| r_auto : forall p m g size ok a p' m' i,
    reach page limit sizes p m g ->
    auto_alloc p m size ok = (Some a, p', m') ->
    m_word m' a = WInt i ->
    reach page limit sizes p' m' (live_add g i a (region_taken p p'))
| r_free : forall p m g i a p' m',
    reach page limit sizes p m g ->
    In (i, a) (g_live g) ->
    pool_free p m i a = (p', m') ->
    reach page limit sizes p' m' (live_free g i [a])
| r_free_list : forall p m g i h r p' m',
    reach page limit sizes p m g ->
    Forall (fun a => In (i, a) (g_live g)) (h :: r) -> NoDup (h :: r) ->
    linked m (h :: r) ->
    pool_free_list p m i h (last (h :: r) h) = (p', m') ->
    reach page limit sizes p' m' (live_free g i (h :: r))
| r_user_word : forall p m g i a w,
    reach page limit sizes p m g ->
    In (i, a) (g_live g) ->
    reach page limit sizes p (set_word m a w) g
| r_user_data : forall p m g i a d,
    reach page limit sizes p m g ->
    In (i, a) (g_live g) ->
    reach page limit sizes p (set_data m a d) g.

(* the size of the items of a slot: at least a pointer *)
Definition item_size (sizes : list nat) (i : nat) : nat := Nat.max 8 (nth i sizes 0).

(* two items do not share a byte *)
Definition disjoint_items (sizes : list nat) (x y : nat * addr) : Prop :=
  fst (snd x) <> fst (snd y) \/
  snd (snd x) + item_size sizes (fst x) <= snd (snd y) \/
  snd (snd y) + item_size sizes (fst y) <= snd (snd x).

(* an item lies in a region the pool owns *)
Definition in_region (sizes : list nat) (g : ghost) (x : nat * addr) : Prop :=
  exists len, nth_error (g_regions g) (fst (snd x)) = Some len /\
    snd (snd x) + item_size sizes (fst x) <= len.

(* ---- block strings ---- *)

(* [src] cut in pieces of [n] bytes, the last one shorter *)
Fixpoint cut (fuel n : nat) (src : list nat) : list (list nat) :=
  match fuel, src with
  | S f, _ :: _ => firstn n src :: cut f n (skipn n src)
  | _, _ => []
  end.

Definition pieces (n : nat) (src : list nat) : list (list nat) := cut (length src) n src.

(* the string [s] holds the bytes [src], in the items [nodes] of slot [i], which
   nobody else holds *)
Definition holds (m : mem) (g : ghost) (i : nat) (s : bstr) (nodes : list addr)
    (src : list nat) : Prop :=
  bs_len s = length src /\
  (src <> [] -> 0 < bs_block_len s) /\
  bs_data s = hd_error nodes /\ linked m nodes /\
  NoDup nodes /\ Forall (fun a => In (i, a) (g_live g)) nodes /\
  map (m_data m) nodes = pieces (bs_block_len s) src.

Definition sorted (sizes : list nat) : Prop :=
  forall j k, j <= k < length sizes -> nth j sizes 0 <= nth k sizes 0.

(* giving back everything a string holds, as its users expect *)
Definition gave_back (g g' : ghost) (i : nat) (nodes : list addr) : Prop :=
  forall a, In a nodes -> ~ In (i, a) (g_live g') /\ In a (g_free g' i).
