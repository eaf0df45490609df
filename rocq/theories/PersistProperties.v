(* C05-C08: the persistence format. *)
From Coq Require Import ZArith List Lia.
From Verif Require Import Bytes PersistModel PersistSpec PersistProofs.
Import ListNotations.
Open Scope Z_scope.

(* C05.  Any forest of blocks, written by any sequence of calls that makes it,
   with any buffer size, gives a file whose bytes are exactly the file header
   (with the right total size) followed by the wire form of the forest. *)
Theorem C05_written_bytes : forall bs type created l ops,
  (32 <= bs)%nat -> 0 < type < 2 ^ 32 -> ok_all l -> (depth_all l <= 5)%nat ->
  Z.of_nat (32 + length (encode_all l)) < 2 ^ 28 ->
  realise_all l ops ->
  exists w chain size, pw_run bs (pw_init bs type created) ops = PwOk w /\
    pw_finish w true = Some (chain, size) /\
    chain_bytes chain = file_header size type created ++ encode_all l /\
    size = Z.of_nat (length (chain_bytes chain)).
Proof. exact write_file. Qed.
Print Assumptions C05_written_bytes.

(* C05.  Reading that file back gives the forest: same ids, flags, header
   parts, data, order and nesting. *)
Theorem C05_round_trip : forall bs type created l ops,
  (32 <= bs)%nat -> 0 < type < 2 ^ 32 -> ok_all l -> (depth_all l <= 5)%nat ->
  Z.of_nat (32 + length (encode_all l)) < 2 ^ 28 ->
  realise_all l ops ->
  exists w chain size rs, pw_run bs (pw_init bs type created) ops = PwOk w /\
    pw_finish w true = Some (chain, size) /\
    read_file_header (chain_bytes chain) type = ROk (rs, 10) /\
    read_tree 5 (chain_bytes chain) (length (chain_bytes chain)) rs = ROk (map tree_of l).
Proof.
  intros bs type created l ops Hbs Ht Hok Hd Hsz Hr.
  destruct (write_file bs type created l ops Hbs Ht Hok Hd Hsz Hr)
    as (w & chain & size & E1 & E2 & E3 & _).
  destruct (read_file_header_ok type created size (encode_all l) Ht) as (rs & R1 & R2 & R3).
  exists w, chain, size, rs. rewrite E3. repeat split; try assumption.
  apply read_tree_encode; try assumption; lia.
Qed.
Print Assumptions C05_round_trip.

(* C05.  Opening more than five nested blocks is refused. *)
Theorem C05_too_deep : forall bs w id,
  (5 <= length (pw_blocks w))%nat -> pw_open bs w id = PwErr.
Proof.
  intros bs w id H. unfold pw_open, MAX_BLOCK_DEPTH.
  destruct (Nat.leb_spec 5 (length (pw_blocks w))); [reflexivity|lia].
Qed.
Print Assumptions C05_too_deep.

(* a file with a nested container, a linked buffer, and a header part *)
Definition ex_forest : list blk :=
  [ Node 7 [1; 2] [ Leaf 8 [3; 4; 5]; Split 9 2 [6] [7; 8]; Node 10 [] [Leaf 11 []] ];
    Leaf 12 [255] ].

Definition ex_ops : list wop :=
  [ WOpen 7; WWrite [1; 2];
      WBlock 8 12 [3; 4; 5];
      WOpen 9; WAppend [6]; WSetHeader (2 * 2 ^ 28); WWrite [7]; WWrite [8]; WClose;
      WOpen 10; WOpen 11; WClose; WClose;
    WClose;
    WOpen 12; WWrite [255]; WClose ].

Example ex_forest_hyps :
  (32 <= 40)%nat /\ ok_all ex_forest /\ (depth_all ex_forest <= 5)%nat /\
  Z.of_nat (32 + length (encode_all ex_forest)) < 2 ^ 28 /\ realise_all ex_forest ex_ops.
Proof.
  repeat split; try (vm_compute; lia); try (repeat constructor; unfold is_byte; lia).
  change ex_ops with
    ((WOpen 7 :: [WWrite [1;2]] ++
       ([WBlock 8 12 [3;4;5]] ++
        (WOpen 9 :: [WAppend [6]] ++ WSetHeader (2 * 2 ^ 28) :: [WWrite [7]; WWrite [8]] ++ [WClose]) ++
        (WOpen 10 :: [] ++ ((WOpen 11 :: [] ++ [WClose]) ++ []) ++ [WClose]) ++ []) ++ [WClose])
     ++ (WOpen 12 :: [WWrite [255]] ++ [WClose]) ++ []).
  apply r_cons.
  - apply r_node_implicit.
    + apply (emits_write [1;2] []). constructor.
    + apply r_cons; [apply r_direct|]. apply r_cons.
      * apply r_split; [apply (emits_append [6] []); constructor|].
        apply (emits_write [7] [8]). apply (emits_write [8] []). constructor.
      * apply r_cons; [|constructor]. apply r_node_implicit; [constructor|].
        apply r_cons; [|constructor]. apply r_leaf. constructor.
  - apply r_cons; [|constructor]. apply r_leaf. apply (emits_write [255] []). constructor.
Qed.

Example ex_forest_runs :
  match pw_run 40 (pw_init 40 5 99) ex_ops with
  | PwOk w => match pw_finish w true with
              | Some (c, _) => length c
              | None => O end
  | _ => O
  end = 5%nat.
Proof. vm_compute. reflexivity. Qed.

(* C05.  Whatever is written, in whatever order, the bytes stored in the buffer
   being filled and the room it is believed to have never exceed its size: no
   write goes past the end of a buffer. *)
Theorem C05_buffer_capacity : forall bs type created ops w, (32 <= bs)%nat ->
  pw_run bs (pw_init bs type created) ops = PwOk w ->
  (length (pw_cur w) + pw_left w <= bs)%nat.
Proof. exact capacity_ok. Qed.
Print Assumptions C05_buffer_capacity.

Example C05_capacity_case :
  match pw_run 32 (pw_init 32 5 7) [WWrite [1;2;3]; WWrite [4;5]] with
  | PwOk w => (length (pw_done w), length (pw_cur w), pw_left w)
  | _ => (0, 0, 0)%nat
  end = (1, 5, 27)%nat.
Proof. vm_compute. reflexivity. Qed.

(* C06.  Whatever the bytes of the file are, no reader primitive and no walk
   over the blocks reads outside the buffer, and every stream handed out lies
   inside the one it was taken from. *)
Theorem C06_file_header : forall buf type,
  match read_file_header buf type with
  | ROk (rs, _) => rs_ok buf rs /\ (32 <= rs_pos rs)%nat
  | RBad | RDeclined => True
  | _ => False
  end.
Proof. exact read_file_header_safe. Qed.
Print Assumptions C06_file_header.

Theorem C06_block : forall buf rs, rs_ok buf rs ->
  match read_block buf rs with
  | ROk (hdr, brs, rs') =>
      hdr = rs_pos rs /\ within brs rs /\ within rs' rs /\ rs_ok buf brs /\ rs_ok buf rs' /\
      (hdr + 12 = rs_pos brs)%nat /\ rs_pos rs' = rs_end brs /\ rs_end rs' = rs_end rs
  | RBad => True
  | _ => False
  end.
Proof. exact read_block_safe. Qed.
Print Assumptions C06_block.

Theorem C06_skip_header : forall buf rs hdr,
  rs_ok buf rs -> (hdr + 12 <= length buf)%nat ->
  match skip_block_header buf rs hdr with
  | ROk rs' => within rs' rs /\ rs_end rs' = rs_end rs /\ rs_ok buf rs'
  | RBad => True
  | _ => False
  end.
Proof. exact skip_block_header_safe. Qed.
Print Assumptions C06_skip_header.

Theorem C06_read : forall buf rs n, rs_ok buf rs ->
  match rs_read buf rs n with
  | ROk (d, rs') => length d = n /\ within rs' rs /\ rs_ok buf rs'
  | RBad => True
  | _ => False
  end.
Proof. exact rs_read_safe. Qed.
Print Assumptions C06_read.

(* walking a level, with any handlers that are safe on the blocks they get *)
Theorem C06_blocks : forall (S : Type) buf known (h : S -> nat -> rstream -> rres S) fuel rs s,
  rs_ok buf rs ->
  (forall s hdr brs, within brs rs -> rs_ok buf brs -> (hdr + 12 = rs_pos brs)%nat ->
     (rs_pos rs <= hdr)%nat -> h s hdr brs <> RUB /\ h s hdr brs <> RFuel) ->
  read_blocks buf known h fuel rs s <> RUB /\
  ((rs_end rs - rs_pos rs <= fuel)%nat -> read_blocks buf known h fuel rs s <> RFuel).
Proof. intros S. exact (@read_blocks_safe S). Qed.
Print Assumptions C06_blocks.

(* a whole file, nested containers included: it ends, and stays inside *)
Theorem C06_whole_file : forall buf type rs v,
  read_file_header buf type = ROk (rs, v) ->
  read_tree (S (length buf)) buf (length buf) rs <> RUB /\
  read_tree (S (length buf)) buf (length buf) rs <> RFuel.
Proof.
  intros buf type rs v E. pose proof (read_file_header_safe buf type) as H. rewrite E in H.
  destruct H as [Hok _]. destruct (read_tree_safe buf (length buf) (S (length buf)) rs Hok ltac:(lia)) as [A B].
  split; [exact A|]. apply B. destruct Hok. lia.
Qed.
Print Assumptions C06_whole_file.

Example ex_hostile :
  (* a block that claims to be larger than the file *)
  let buf := file_header 60 5 99 ++ [1;0;0;0; 255;3;0;0; 12;0;0;0] in
  exists rs, read_file_header buf 5 = ROk (rs, 10) /\ read_tree (S (length buf)) buf (length buf) rs = RBad.
Proof. exists (mk_rs 32 44). split; vm_compute; reflexivity. Qed.

(* C07.  Reading a level runs the handler of each known block, in file order,
   and skips the blocks without a handler, whatever they contain. *)
Theorem C07_blocks_in_order : forall (S : Type) buf known
    (h : S -> nat -> rstream -> rres S) (hs : S -> rawblk -> rres S) l fuel rs s,
  rs_ok buf rs -> window buf rs = concat (map rb_enc l) ->
  Forall rb_ok l -> (length l <= fuel)%nat ->
  (forall s hdr brs b, In b l -> known (le 4 (rb_id b)) = true ->
     rs_ok buf brs -> window buf brs = rb_payload b ->
     rs_pos brs = (hdr + 12)%nat ->
     mem_get buf hdr 4 = ROk (le 4 (rb_id b)) ->
     mem_get buf (hdr + 8) 4 = ROk (le 4 (rb_hsize b)) ->
     h s hdr brs = hs s b) ->
  read_blocks buf known h fuel rs s =
  fold_res hs (filter (fun b => known (le 4 (rb_id b))) l) s.
Proof. intros S. exact (@read_blocks_enc S). Qed.
Print Assumptions C07_blocks_in_order.

(* adding or removing unknown blocks anywhere does not change the result *)
Theorem C07_unknown_ignored : forall (S : Type) buf1 buf2 known
    (h1 h2 : S -> nat -> rstream -> rres S) (hs : S -> rawblk -> rres S) l1 l2 rs1 rs2 s,
  filter (fun b => known (le 4 (rb_id b))) l1 = filter (fun b => known (le 4 (rb_id b))) l2 ->
  rs_ok buf1 rs1 -> window buf1 rs1 = concat (map rb_enc l1) -> Forall rb_ok l1 ->
  rs_ok buf2 rs2 -> window buf2 rs2 = concat (map rb_enc l2) -> Forall rb_ok l2 ->
  (forall s hdr brs b, rs_ok buf1 brs -> window buf1 brs = rb_payload b ->
     rs_pos brs = (hdr + 12)%nat -> mem_get buf1 hdr 4 = ROk (le 4 (rb_id b)) ->
     mem_get buf1 (hdr + 8) 4 = ROk (le 4 (rb_hsize b)) -> h1 s hdr brs = hs s b) ->
  (forall s hdr brs b, rs_ok buf2 brs -> window buf2 brs = rb_payload b ->
     rs_pos brs = (hdr + 12)%nat -> mem_get buf2 hdr 4 = ROk (le 4 (rb_id b)) ->
     mem_get buf2 (hdr + 8) 4 = ROk (le 4 (rb_hsize b)) -> h2 s hdr brs = hs s b) ->
  read_blocks buf1 known h1 (length l1) rs1 s = read_blocks buf2 known h2 (length l2) rs2 s.
Proof.
  intros S buf1 buf2 known h1 h2 hs l1 l2 rs1 rs2 s Hf O1 W1 F1 O2 W2 F2 H1 H2.
  rewrite (read_blocks_enc buf1 known h1 hs l1); auto.
  rewrite (read_blocks_enc buf2 known h2 hs l2); auto.
  rewrite Hf. reflexivity.
Qed.
Print Assumptions C07_unknown_ignored.

(* an unknown block between two known ones; the handler collects sizes *)
Example ex_unknown_skipped :
  let l := [mk_rawblk 1 12 [9;9]; mk_rawblk 2 12 [255;255;255]; mk_rawblk 1 12 []] in
  let buf := concat (map rb_enc l) in
  let known id := match id with 1 :: _ => true | _ => false end in
  read_blocks buf known (fun acc _ brs => ROk (acc ++ [rs_end brs - rs_pos brs]%nat))
    3 (mk_rs 0 (length buf)) [] = ROk [2; 0]%nat.
Proof. vm_compute. reflexivity. Qed.

(* C08.  A string written is read back unchanged, and the stream is left right
   after it; a cut string is refused. *)
Theorem C08_string_written : forall bs w s,
  Z.of_nat (length s) < 2 ^ 32 ->
  exists w', pw_run bs w (wstream_str s) = PwOk w' /\
    chain_bytes (pw_done w' ++ [pw_cur w']) =
      chain_bytes (pw_done w ++ [pw_cur w]) ++ le 4 (Z.of_nat (length s)) ++ s /\
    pw_size w' = pw_size w + 4 + Z.of_nat (length s).
Proof.
  intros bs w s H. destruct (wstream_str_flat bs w s H) as (w' & A & B & _ & D).
  exists w'. auto.
Qed.
Print Assumptions C08_string_written.

Theorem C08_string_read : forall buf rs s rest,
  rs_ok buf rs -> Z.of_nat (length s) < 2 ^ 32 ->
  window buf rs = le 4 (Z.of_nat (length s)) ++ s ++ rest ->
  exists p rs', rs_str_get buf rs = ROk (p, length s, rs') /\
    mem_get buf p (length s) = ROk s /\ rs_ok buf rs' /\ window buf rs' = rest.
Proof. exact str_get_ok. Qed.
Print Assumptions C08_string_read.

Theorem C08_string_truncated : forall buf rs s k,
  rs_ok buf rs -> Z.of_nat (length s) < 2 ^ 32 -> (k < 4 + length s)%nat ->
  window buf rs = firstn k (le 4 (Z.of_nat (length s)) ++ s) ->
  rs_str_get buf rs = RBad.
Proof. exact str_get_truncated. Qed.
Print Assumptions C08_string_truncated.

Theorem C08_string_hostile : forall buf rs, rs_ok buf rs ->
  match rs_str_get buf rs with
  | ROk (p, n, rs') => (p + n <= rs_end rs)%nat /\ (rs_pos rs <= p)%nat /\ within rs' rs /\ rs_ok buf rs'
  | RBad => True
  | _ => False
  end.
Proof. exact str_get_safe. Qed.
Print Assumptions C08_string_hostile.

Theorem C08_fixed_read : forall buf rs max s rest,
  rs_ok buf rs -> Z.of_nat (length s) < 2 ^ 32 ->
  window buf rs = le 4 (Z.of_nat (length s)) ++ s ++ rest ->
  if (length s <=? max)%nat then
    exists rs', rs_str_fixed buf rs max = ROk (s, rs') /\ rs_ok buf rs' /\ window buf rs' = rest
  else rs_str_fixed buf rs max = RBad.
Proof. exact str_fixed_ok. Qed.
Print Assumptions C08_fixed_read.

Theorem C08_fixed_hostile : forall buf rs max, rs_ok buf rs ->
  match rs_str_fixed buf rs max with
  | ROk (d, rs') => (length d <= max)%nat /\ within rs' rs /\ rs_ok buf rs'
  | RBad => True
  | _ => False
  end.
Proof. exact str_fixed_safe. Qed.
Print Assumptions C08_fixed_hostile.

Example ex_string :
  let buf := [3;0;0;0; 97;98;99; 7] in
  rs_str_get buf (mk_rs 0 8) = ROk (4%nat, 3%nat, mk_rs 7 8) /\
  rs_str_get buf (mk_rs 0 6) = RBad /\
  rs_str_fixed buf (mk_rs 0 8) 2 = RBad.
Proof. vm_compute. auto. Qed.
