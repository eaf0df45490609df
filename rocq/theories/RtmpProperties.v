(* Properties of the RTMP chunk reader. *)

From Coq Require Import List ZArith Lia Bool Arith.
From Coq Require Import ZifyBool ZifyNat.
From Verif Require Import Lists Bytes RtmpModel RtmpSpec RtmpProofs RtmpProofs2 RtmpProofs3 RtmpProofs4.
Import ListNotations.
Open Scope Z_scope.

(* what is seen from outside: is the session open, and which messages did the
   handlers get, each with the buffers it was handed in *)
Definition seen (r : res) : bool * list msg :=
  match r with Go s => (true, s_out s) | Closed o => (false, o) end.

(* nothing more will happen: the session is closed or all bytes are read *)
Definition settled (x : res * list Z) : Prop :=
  match x with (Closed _, _) => True | (Go _, rest) => rest = [] end.

(* ---- C59: how the bytes arrive does not matter ---- *)

(* The reader never uses memory that is gone and never gets stuck. *)
Theorem C59_defined c t3 net ks : 0 <= max_streams c -> Forall is_byte net ->
  run c (init c t3) net ks <> None.
Proof.
  intros HM FN. destruct (run_init c t3 net ks HM FN) as [(s1 & d1 & u1 & p & rest & -> & _)|(o & p & rest & -> & _)]; discriminate.
Qed.
Print Assumptions C59_defined.

Theorem C59_fragments c t3 net ks1 ks2 x1 x2 : 0 <= max_streams c -> Forall is_byte net ->
  run c (init c t3) net ks1 = Some x1 -> run c (init c t3) net ks2 = Some x2 ->
  settled x1 -> settled x2 ->
  seen (fst x1) = seen (fst x2).
Proof.
  intros HM FN R1 R2 S1 S2.
  assert (HC : 1 <= d_chunk (dinit c t3)) by (cbn; unfold default_chunk_size; lia).
  assert (G : forall ks x, run c (init c t3) net ks = Some x -> settled x ->
    exists y, decs c (dinit c t3) net y /\ seen (fst x) = match y with inl (d, _) => (true, d_out d) | inr o => (false, o) end).
  { intros ks x R S. destruct (run_init c t3 net ks HM FN) as [(s1 & d1 & u1 & p & rest & E & N & D & W)|(o & p & rest & E & N & D)].
    - assert (x = (Go s1, rest)) as -> by congruence. cbn in S. subst rest. rewrite app_nil_r in N. subst p.
      exists (inl (d1, u1)). split; [exact D|]. cbn. rewrite (waits_out c s1 d1 u1 W). reflexivity.
    - assert (x = (Closed o, rest)) as -> by congruence. exists (inr o). split; [|reflexivity].
      rewrite N. apply decs_app_close; auto. }
  destruct (G ks1 x1 R1 S1) as (y1 & D1 & ->). destruct (G ks2 x2 R2 S2) as (y2 & D2 & ->).
  rewrite (decs_fun c _ _ _ _ D1 D2). reflexivity.
Qed.
Print Assumptions C59_fragments.

(* Whatever was delivered at some point is the beginning of what is delivered
   in the end. *)
Theorem C59_prefix c t3 net ks1 ks2 x1 x2 : 0 <= max_streams c -> Forall is_byte net ->
  run c (init c t3) net ks1 = Some x1 -> run c (init c t3) net ks2 = Some x2 ->
  settled x2 ->
  exists e, snd (seen (fst x2)) = snd (seen (fst x1)) ++ e.
Proof.
  intros HM FN R1 R2 S2.
  assert (HC : 1 <= d_chunk (dinit c t3)) by (cbn; unfold default_chunk_size; lia).
  assert (G2 : exists y, decs c (dinit c t3) net y /\ snd (seen (fst x2)) = outs y).
  { destruct (run_init c t3 net ks2 HM FN) as [(s1 & d1 & u1 & p & rest & E & N & D & W)|(o & p & rest & E & N & D)].
    - assert (x2 = (Go s1, rest)) as -> by congruence. cbn in S2. subst rest. rewrite app_nil_r in N. subst p.
      exists (inl (d1, u1)). split; [exact D|]. cbn. apply (waits_out c s1 d1 u1 W).
    - assert (x2 = (Closed o, rest)) as -> by congruence. exists (inr o). split; [|reflexivity].
      rewrite N. apply decs_app_close; auto. }
  destruct G2 as (y2 & D2 & ->).
  destruct (run_init c t3 net ks1 HM FN) as [(s1 & d1 & u1 & p & rest & E & N & D & W)|(o & p & rest & E & N & D)].
  - assert (x1 = (Go s1, rest)) as -> by congruence. cbn. rewrite (waits_out c s1 d1 u1 W).
    destruct (decs_total c d1 (u1 ++ rest) (decs_chunk c _ _ _ _ D HC)) as (y & DY).
    pose proof (decs_app c _ _ rest _ _ _ HC D DY) as D3. rewrite <- N in D3.
    rewrite (decs_fun c _ _ _ _ D2 D3). destruct (decs_out c d1 _ y DY) as (e & E1 & _). exists e. exact E1.
  - assert (x1 = (Closed o, rest)) as -> by congruence. cbn. exists [].
    pose proof (decs_app_close c _ _ rest _ HC D) as D3. rewrite <- N in D3.
    rewrite (decs_fun c _ _ _ _ D2 D3). cbn. rewrite app_nil_r. reflexivity.
Qed.
Print Assumptions C59_prefix.

(* Reads that return bytes get everything: as many of them as there are bytes
   always settle the connection. *)
Theorem C59_progress c t3 net ks x : 0 <= max_streams c -> Forall is_byte net ->
  Forall (fun k => 0 < k) ks -> (length net <= length ks)%nat ->
  run c (init c t3) net ks = Some x -> settled x.
Proof.
  intros HM FN FK HL R. destruct x as [[s|o] rest]; [|exact Logic.I]. cbn.
  exact (run_length ks c (init c t3) (dinit c t3) [] net (init_waits c t3 HM) eq_refl (Forall_nil _) FN FK HL s rest R).
Qed.
Print Assumptions C59_progress.

(* ---- C60: the messages that were sent are the messages that are delivered ---- *)

Theorem C60_messages c t3 repeats acts ks : 0 <= max_streams c -> (forall l, accept c l = true) ->
  acts_ok 4 (max_streams c) (max_message c) sender0 acts -> agree t3 repeats acts ->
  exists s rest e, run c (init c t3) (wire repeats sender0 acts) ks = Some (Go s, rest) /\
    filter known (sent sender0 acts) = map view (s_out s) ++ e /\
    (rest = [] -> e = []) /\
    Forall (fun m => m_mlen m = len (concat (m_bufs m))) (s_out s).
Proof.
  intros HM ACC OK AG.
  assert (HC : 1 <= d_chunk (dinit c t3)) by (cbn; unfold default_chunk_size; lia).
  assert (MD : acts_mode t3 repeats 0 sender0 acts).
  { destruct t3; cbn in AG; [apply fixed_mode; auto|apply fixed_mode; auto|apply auto_mode; exact AG]. }
  assert (FN : Forall is_byte (wire repeats sender0 acts)).
  { eapply wire_byte; [|exact OK]. intros cs. constructor. }
  destruct (acts_dec c repeats acts t3 0 sender0 (dinit c t3) (srel_init c t3 HM) ACC OK MD) as (t1 & l1 & d1 & D1 & R1).
  destruct R1 as (_ & _ & _ & _ & R4 & R5 & _). rewrite sent_acts, <- R4.
  destruct (run_init c t3 _ ks HM FN) as [(s2 & d2 & u2 & p & rest & E & N & D & W)|(o & p & rest & E & N & D)].
  - destruct (decs_total c d2 (u2 ++ rest) (decs_chunk c _ _ _ _ D HC)) as (y & DY).
    pose proof (decs_app c _ _ rest _ _ _ HC D DY) as D3. rewrite <- N in D3.
    pose proof (decs_fun c _ _ _ _ D1 D3) as EY. subst y.
    destruct (decs_out c d2 _ _ DY) as (e & E1 & _). cbn [outs] in E1.
    rewrite <- (waits_out c s2 d2 u2 W) in E1. rewrite E1 in R5 |- *.
    exists s2, rest, (map view e). split; [exact E|]. split; [apply map_app|].
    apply Forall_app in R5. split; [|apply R5]. intros ->.
    rewrite app_nil_r in N. subst p. pose proof (decs_fun c _ _ _ _ D1 D) as E2.
    assert (d1 = d2) by congruence. subst d2.
    apply (f_equal (@length _)) in E1. rewrite (waits_out c s2 d1 u2 W) in E1. rewrite app_length in E1.
    destruct e; [reflexivity|cbn in E1; lia].
  - pose proof (decs_app_close c _ _ rest _ HC D) as D3. rewrite <- N in D3.
    pose proof (decs_fun c _ _ _ _ D1 D3). discriminate.
Qed.
Print Assumptions C60_messages.

(* a checkable form: all bytes were read, and what was delivered *)
Definition got (r : option (res * list Z)) : option (list smsg) :=
  match r with Some (Go s, []) => Some (map view (s_out s)) | _ => None end.

Lemma got_glue r want (f : list smsg -> list Z) a :
  match got r with Some l => Some (f l) | None => None end = a ->
  a <> Some (f (filter known want)) -> a <> None ->
  ~ (exists s rest e, r = Some (Go s, rest) /\ filter known want = map view (s_out s) ++ e /\ (rest = [] -> e = []) /\
       Forall (fun m => m_mlen m = len (concat (m_bufs m))) (s_out s)).
Proof.
  intros HA N1 N2 (s & rest & e & -> & E & HE & _). cbn in HA. destruct rest; [|congruence].
  rewrite (HE eq_refl), app_nil_r in E. rewrite E in N1. congruence.
Qed.

(* The default mode guesses whether the sender repeats extended timestamps from
   the last timestamp of any chunk stream: a message of one chunk stream
   between two chunks of a message of another one is enough to guess wrong. *)
Definition bytes (n : nat) (z : Z) : list Z := repeat z n.
Definition ex_auto : list act :=
  [ Start 1 0 (SMsg 6 16777216 9 1 (bytes 200 7)); Start 1 0 (SMsg 4 16777221 8 1 (bytes 20 8)); Next 1 6 ].
Definition cfg0 : cfg := Cfg 32 1048576 (fun _ => true).

Theorem C60_auto_refuted : ~ (forall acts ks, acts_ok 4 32 1048576 sender0 acts ->
  exists s rest e, run cfg0 (init cfg0 T3Auto) (wire true sender0 acts) ks = Some (Go s, rest) /\
    filter known (sent sender0 acts) = map view (s_out s) ++ e /\ (rest = [] -> e = []) /\
    Forall (fun m => m_mlen m = len (concat (m_bufs m))) (s_out s)).
Proof.
  intros H. specialize (H ex_auto (repeat 100 10) (acts_okb_ok 4 32 1048576 ex_auto sender0 eq_refl)).
  refine (got_glue _ _ (fun l => map (fun m => fold_right Z.add 0 (x_body m)) l) (Some [160; 1373]) _ _ _ H).
  - vm_compute. reflexivity.
  - vm_compute. discriminate.
  - discriminate.
Qed.
Print Assumptions C60_auto_refuted.

(* Chunk sizes below 4 are legal too, but after one of them the chunk size can
   not be changed any more: the reader looks for the number in the first chunk
   only. *)
Definition ex_small : list act :=
  [ Start 1 0 (SMsg 2 0 1 0 [0; 0; 0; 3]); Start 1 0 (SMsg 2 0 1 0 [0; 0; 0; 128]); Next 1 2;
    Start 1 0 (SMsg 4 0 8 1 [1; 2; 3; 196; 4; 5; 6; 196; 7; 8; 9; 196; 10; 11; 12]) ].

Theorem C60_small_chunk_refuted : ~ (forall acts ks, acts_ok 1 32 1048576 sender0 acts ->
  exists s rest e, run cfg0 (init cfg0 T3Off) (wire false sender0 acts) ks = Some (Go s, rest) /\
    filter known (sent sender0 acts) = map view (s_out s) ++ e /\ (rest = [] -> e = []) /\
    Forall (fun m => m_mlen m = len (concat (m_bufs m))) (s_out s)).
Proof.
  intros H. specialize (H ex_small (repeat 10 20) (acts_okb_ok 1 32 1048576 ex_small sender0 eq_refl)).
  refine (got_glue _ _ (fun l => concat (map x_body l)) (Some [0; 0; 0; 3; 0; 0; 0; 128]) _ _ _ H).
  - vm_compute. reflexivity.
  - vm_compute. discriminate.
  - discriminate.
Qed.
Print Assumptions C60_small_chunk_refuted.

(* a history with two interleaved messages, a change of the chunk size while
   both are being sent, extended timestamps and a message of unknown type *)
Definition ex_acts : list act :=
  [ Start 1 0 (SMsg 4 16777300 8 1 (bytes 300 5)); Next 1 4; Start 1 0 (SMsg 6 40 9 1 (bytes 200 6));
    Start 1 0 (SMsg 2 0 1 0 [0; 0; 0; 50]); Next 1 6; Next 1 4; Next 1 6; Start 1 1 (SMsg 2 3 99 0 [1; 2]);
    Start 1 2 (SMsg 6 80 9 1 (bytes 200 9)); Next 1 6; Next 1 6; Next 1 6 ].

Example C60_ex : 0 <= max_streams cfg0 /\ acts_ok 4 (max_streams cfg0) (max_message cfg0) sender0 ex_acts /\ agree T3Auto true ex_acts.
Proof. split; [discriminate|]. split; [apply acts_okb_ok; vm_compute; reflexivity|]. vm_compute. auto. Qed.

Example C60_ex_run : got (run cfg0 (init cfg0 T3Auto) (wire true sender0 ex_acts) (repeat 7 200)) =
  Some [SMsg 2 0 1 0 [0; 0; 0; 50]; SMsg 4 16777300 8 1 (bytes 300 5); SMsg 6 40 9 1 (bytes 200 6); SMsg 6 80 9 1 (bytes 200 9)].
Proof. vm_compute. reflexivity. Qed.

Example C59_ex : got (run cfg0 (init cfg0 T3Auto) (wire true sender0 ex_acts) (repeat 10000 12)) =
  got (run cfg0 (init cfg0 T3Auto) (wire true sender0 ex_acts) (repeat 1 1000)) /\
  settled (Go (init cfg0 T3Auto), []).
Proof. split; [vm_compute; reflexivity|reflexivity]. Qed.

(* ---- C61: the memory a session holds ---- *)

(* A change of the chunk size moves what is buffered to a new pool and frees
   the old one when the buffered bytes are used up; so once everything was read
   one pool should be left.  It is not so when a peer changes the chunk size
   to a small one while a large buffer is being worked off: each further change
   within that buffer leaves a pool behind. *)
Definition resize (hi lo : Z) : act := Start 1 0 (SMsg 2 0 1 0 [0; 0; hi; lo]).
Definition resizes (k : nat) : list act := resize 16 0 :: repeat (resize 0 4) k.

Theorem C61_pools_refuted : ~ (forall c t3 acts ks s, 0 <= max_streams c -> (forall l, accept c l = true) ->
  acts_ok 4 (max_streams c) (max_message c) sender0 acts ->
  run c (init c t3) (wire false sender0 acts) ks = Some (Go s, []) ->
  (length (s_live s) <= 2)%nat).
Proof.
  intros H.
  assert (G : forall r : option (res * list Z), match r with Some (Go s, []) => length (s_live s) | _ => O end = 19%nat ->
     exists s, r = Some (Go s, []) /\ (length (s_live s) = 19)%nat).
  { intros [[[s|o] [|z rest]]|]; try discriminate. intros E. exists s. auto. }
  destruct (G (run cfg0 (init cfg0 T3Auto) (wire false sender0 (resizes 20)) [16; 4000; 4000])) as (s & E & L).
  { vm_compute. reflexivity. }
  pose proof (H cfg0 T3Auto (resizes 20) [16; 4000; 4000] s ltac:(discriminate) (fun _ => eq_refl)
    (acts_okb_ok 4 32 1048576 (resizes 20) sender0 eq_refl) E). lia.
Qed.
Print Assumptions C61_pools_refuted.

(* ---- C62: the limit on the size of a message ---- *)

(* A message whose header tells a size above the limit is never delivered. *)
Theorem C62_announced_partial c t3 net ks x : 0 <= max_streams c -> Forall is_byte net ->
  run c (init c t3) net ks = Some x ->
  Forall (fun m => m_mlen m <= max_message c) (snd (seen (fst x))).
Proof.
  intros HM FN R.
  destruct (run_init c t3 net ks HM FN) as [(s1 & d1 & u1 & p & rest & E & N & D & W)|(o & p & rest & E & N & D)].
  - assert (x = (Go s1, rest)) as -> by congruence. cbn. rewrite (waits_out c s1 d1 u1 W).
    destruct (decs_out c _ _ _ D) as (e & E1 & F). cbn in E1. rewrite E1. exact F.
  - assert (x = (Closed o, rest)) as -> by congruence. cbn.
    destruct (decs_out c _ _ _ D) as (e & E1 & F). cbn in E1. rewrite E1. exact F.
Qed.
Print Assumptions C62_announced_partial.

(* But what is buffered is not limited: a header in the middle of a message may
   tell a smaller size, and then the number of bytes still to come wraps
   around. *)
Definition held (s : sess) : Z := fold_right Z.add 0 (map (fun st => len (concat (map payload (snd st)))) (s_streams s)).

Definition ex_shrink : list Z :=
  w_basic 1 0 4 ++ be 3 0 ++ be 3 200 ++ [8] ++ le 4 1 ++ bytes 128 1 ++
  w_basic 1 1 4 ++ be 3 0 ++ be 3 10 ++ [8] ++ bytes 128 2 ++
  concat (repeat (w_basic 1 3 4 ++ bytes 128 3) 20).

Theorem C62_buffered_refuted : ~ (forall c t3 net ks s rest, 0 <= max_streams c -> Forall is_byte net ->
  run c (init c t3) net ks = Some (Go s, rest) ->
  held s <= max_streams c * max_message c).
Proof.
  intros H. set (c := Cfg 5 200 (fun _ => true)).
  assert (G : forall r : option (res * list Z), match r with Some (Go s, []) => held s | _ => 0 end = 2816 ->
     exists s, r = Some (Go s, []) /\ held s = 2816).
  { intros [[[s|o] [|z rest]]|]; try discriminate. intros E. exists s. auto. }
  destruct (G (run c (init c T3Auto) ex_shrink (repeat 4000 30))) as (s & E & L).
  { vm_compute. reflexivity. }
  assert (F : Forall is_byte ex_shrink) by (apply bytes_ok; vm_compute; reflexivity).
  pose proof (H c T3Auto ex_shrink (repeat 4000 30) s [] ltac:(discriminate) F E) as X. rewrite L in X.
  cbn in X. lia.
Qed.
Print Assumptions C62_buffered_refuted.

Example C62_ex : match run cfg0 (init cfg0 T3Auto) (wire true sender0 ex_acts) (repeat 64 40) with
  | Some (Go s, []) => map m_mlen (s_out s) = [4; 300; 200; 200]
  | _ => False
  end.
Proof. vm_compute. reflexivity. Qed.
