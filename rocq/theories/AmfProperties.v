(* C40: AMF values round trip.  C41: AMF reading is safe on hostile input. *)
From Coq Require Import ZArith List Bool Lia ZifyBool ZifyNat.
From Verif Require Import Lists AmfModel AmfSpec AmfProofs AmfProofs2 AmfProofs3 AmfProofs4.
Import ListNotations.
Open Scope Z_scope.

(* ---- C40 ---- *)

(* Writing elements that stand for the values appends exactly their encodings,
   whatever the sizes of the buffers, and fails exactly when the allocator does
   not supply enough room. *)
Theorem C40_write : forall mem es vs c,
  stands_list mem es vs -> wf_wctx c ->
  let bytes := concat (map enc vs) in
  ((length bytes <= supply c)%nat ->
     exists c1, write mem c es = WOk c1 /\ wflat c1 = wflat c ++ bytes) /\
  ((supply c < length bytes)%nat -> write mem c es = WErr).
Proof.
  intros mem es vs c H W. cbv zeta. rewrite <- encl_concat.
  pose proof (proj2 (proj2 (writes_all mem)) es vs H c W) as K.
  destruct (Nat.leb_spec (length (encl vs)) (supply c)) as [L|L]; split; intros X; try lia; auto.
  destruct K as (c1 & E & _ & F & _). eauto.
Qed.
Print Assumptions C40_write.

(* Reading encoded values stores exactly what the descriptors ask for, and
   leaves the reader behind them, whatever the buffers they arrive in. *)
Theorem C40_read : forall es vs fuel c rest,
  Forall2 (fun e v => ok_elt e /\ typed_elt e /\ wf_val v) es vs ->
  wf_ctx c -> flat c = concat (map enc vs) ++ rest ->
  (2 * length (flat c) + 2 <= fuel)%nat ->
  exists c1, read fuel c es = mkRes SCont c1 (concat (map (fun p => expected (fst p) (snd p)) (combine es vs))) /\
    flat c1 = rest.
Proof.
  intros es vs fuel c rest H W F L.
  destruct (reads_all es vs fuel c rest [] H W F) as (c1 & W1 & F1 & E).
  { rewrite F, app_length in L. lia. }
  exists c1. split; [|exact F1]. rewrite app_nil_r in E. rewrite E. unfold prepend. cbn.
  now rewrite app_nil_r.
Qed.
Print Assumptions C40_read.

(* Optional values that are missing at the end are not an error. *)
Theorem C40_read_optional : forall es vs fuel c more,
  Forall2 (fun e v => ok_elt e /\ typed_elt e /\ wf_val v) es vs ->
  wf_ctx c -> flat c = concat (map enc vs) ->
  match more with [] => True | e :: _ => e_opt e = true /\ e_typeless e = false end ->
  (2 * length (flat c) + 2 <= fuel)%nat ->
  exists c1, read fuel c (es ++ more) =
    mkRes SCont c1 (concat (map (fun p => expected (fst p) (snd p)) (combine es vs))).
Proof.
  intros es vs fuel c more H W F M L.
  destruct (reads_all es vs fuel c [] more H W) as (c1 & W1 & F1 & E).
  { rewrite app_nil_r. exact F. }
  { rewrite <- F. lia. }
  exists c1. rewrite E.
  assert (R : read fuel c1 more = mkRes SCont c1 []).
  { destruct more as [|[ty o t x n d l] more]; [reflexivity|]. cbn in M. destruct M as [-> ->].
    cbn [read]. destruct fuel as [|f]; [lia|]. cbn [read_one].
    destruct (get_spec c1 1 W1) as [(c2 & _ & _ & _ & L2)|(E2 & _)].
    - rewrite F1 in L2. cbn in L2. lia.
    - rewrite E2. cbn. reflexivity. }
  rewrite R. unfold prepend. cbn. now rewrite app_nil_r.
Qed.
Print Assumptions C40_read_optional.

(* What is written by one side and read by the other, through buffers of any
   sizes, into descriptors that have a place for every part of the values, is
   again in memory: a writer given the same memory would write the same. *)
Theorem C40_round_trip : forall mem es vs w w1 c rest rs m fuel,
  stands_list mem es vs -> wf_wctx w -> write mem w es = WOk w1 ->
  wf_ctx c -> wflat w ++ flat c = wflat w1 ++ rest ->
  mirrors_list rs vs -> NoDup (map fst (all_places rs)) ->
  Forall (fun p => (snd p <= length (m (fst p)))%nat) (all_places rs) ->
  (2 * length (flat c) + 2 <= fuel)%nat ->
  exists c1 stores, read fuel c rs = mkRes SCont c1 stores /\ flat c1 = rest /\
    stands_list (fun i => memory_after i (m i) stores) (map for_writing rs) vs.
Proof.
  intros mem es vs w w1 c rest rs m fuel S W Ew Wc F M N Sz L.
  pose proof (proj2 (proj2 (stands_list_vals mem)) es vs S) as Wv.
  destruct (C40_write mem es vs w S W) as [H1 H2]. cbv zeta in *.
  assert (F' : flat c = concat (map enc vs) ++ rest).
  { destruct (Nat.le_gt_cases (length (concat (map enc vs))) (supply w)) as [K|K].
    - destruct (H1 K) as (w2 & E2 & F2). rewrite Ew in E2. injection E2 as <-.
      rewrite F2, <- app_assoc in F. apply app_inv_head in F. exact F.
    - rewrite (H2 K) in Ew. discriminate. }
  assert (Fa : Forall2 (fun e v => ok_elt e /\ typed_elt e /\ wf_val v) rs vs).
  { clear - M Wv. induction M as [|e rs v vs Me _ _ IH]; [constructor|]. inversion Wv; subst.
    constructor; [|auto]. destruct (proj1 mirrors_good e v Me). auto. }
  destruct (C40_read rs vs fuel c rest Fa Wc F' L) as (c1 & E & F1).
  do 2 eexists. split; [exact E|split; [exact F1|]].
  apply (proj2 (proj2 (stands_mirror m)) rs vs M Wv N Sz).
  intros i _. rewrite expz_concat. reflexivity.
Qed.
Print Assumptions C40_round_trip.

(* ---- C41 ---- *)

(* Whatever the bytes, nothing is stored outside the destinations, and nothing
   undefined happens. *)
Theorem C41_bounds : forall es fuel c,
  Forall ok_elt es -> wf_ctx c ->
  let r := read fuel c es in
  r_status r <> SUB /\ Forall in_bounds (r_stores r).
Proof. intros es fuel c H W. cbv zeta. destruct (read_safe fuel es c W H) as (_ & A & B). auto. Qed.
Print Assumptions C41_bounds.

(* Reading comes to an end: the recursion is bounded by the bytes received and
   the descriptors, even when the descriptors are wrong. *)
Theorem C41_ends : forall es fuel c,
  wf_ctx c -> (2 * length (flat c) + 2 * sizes es + 2 <= fuel)%nat ->
  r_status (read fuel c es) <> SFuel.
Proof. intros es fuel c W L. exact (read_done fuel es c W L). Qed.
Print Assumptions C41_ends.

(* A buffer of strings keeps the zero in its last byte, whatever the bytes and
   whether reading succeeds or not. *)
Theorem C41_strings_kept : forall es fuel c id len m,
  Forall ok_elt es -> Forall (strings_only id len) es -> wf_ctx c ->
  len <= Z.of_nat (length m) -> nth_error m (Z.to_nat (len - 1)) = Some 0 ->
  let m' := memory_after id m (r_stores (read fuel c es)) in
  nth_error m' (Z.to_nat (len - 1)) = Some 0 /\ length m' = length m.
Proof.
  intros es fuel c id len m O S W L Z0. cbv zeta.
  eapply tidy_last; eauto. apply read_tidy; auto.
  rewrite Forall_forall in *. intros e I. split; auto.
Qed.
Print Assumptions C41_strings_kept.

(* When reading succeeds, every buffer a string was stored to is terminated
   within its declared size, whatever it held before. *)
Theorem C41_strings_ended : forall es fuel c id len m cap off x,
  Forall ok_elt es -> Forall (strings_only id len) es -> wf_ctx c ->
  len <= Z.of_nat (length m) ->
  let r := read fuel c es in
  r_status r = SCont -> In (SMem id cap off x) (r_stores r) ->
  In 0 (firstn (Z.to_nat len) (memory_after id m (r_stores r))).
Proof.
  intros es fuel c id len m cap off x O S W L. cbv zeta. intros E I.
  eapply tidy_ended; auto.
  - assert (T : tidy_res id len (read fuel c es)).
    { apply read_tidy; auto. rewrite Forall_forall in *. intros e Ie. split; auto. }
    unfold tidy_res in T. rewrite E in T. exact T.
  - right. apply Exists_exists. eexists. split; [exact I|]. reflexivity.
Qed.
Print Assumptions C41_strings_ended.

(* The full claim does not hold of every descriptor the interface offers.  An
   element of type INT8 has room for one byte; a NUMBER sent instead matches it
   and eight bytes are stored. *)
Theorem C41_int8_refuted : exists c,
  wf_ctx c /\
  exists s, In s (r_stores (read 10 c [Elt T_INT8 false false false [] (DMem 0 1) 1])) /\ ~ in_bounds s.
Proof.
  exists (mkCtx [[0; 1; 2; 3; 4; 5; 6; 7; 8]] 0). split; [unfold wf_ctx; cbn; lia|].
  exists (SMem 0 1 0 [8; 7; 6; 5; 4; 3; 2; 1]). split; [vm_compute; auto|]. unfold in_bounds. cbn. lia.
Qed.
Print Assumptions C41_int8_refuted.

(* And a string that is cut short by the end of the message is left without a
   terminator when the buffer was not cleared before: reading fails, but what
   was in the buffer is no string any more. *)
Theorem C41_failed_string_refuted : exists c m,
  wf_ctx c /\ In 0 m /\ length m = 4%nat /\
  let r := read 10 c [Elt T_STRING false false false [] (DMem 0 4) 4] in
  r_status r = SErr /\ ~ In 0 (memory_after 0 m (r_stores r)).
Proof.
  exists (mkCtx [[2; 0; 9; 65; 66]] 0), [67; 0; 68; 69].
  split; [unfold wf_ctx; cbn; lia|]. split; [cbn; auto|]. split; [reflexivity|].
  cbv zeta. split; [vm_compute; reflexivity|]. vm_compute. intuition discriminate.
Qed.
Print Assumptions C41_failed_string_refuted.

(* ---- cases ---- *)

Definition num1 : list Z := [0; 0; 0; 0; 0; 0; 240; 63].
Definition ex_mem (i : nat) : list Z :=
  match i with
  | 0%nat => [99; 111; 110; 110; 101; 99; 116; 0]
  | 1%nat => num1
  | 2%nat => [97; 112; 112; 0; 0; 0]
  | 3%nat => [1]
  | _ => []
  end.
(* "connect", 1.0, {"app": "app", "x": true, "y": [null, 1.0]} *)
Definition ex_elts : list elt :=
  [Elt T_STRING false false false [] (DMem 0 8) 7;
   Elt T_NUMBER false false false [] (DMem 1 8) 0;
   Elt T_OBJECT false false false []
     (DElts [Elt T_STRING false false false [97; 112; 112] (DMem 2 6) 0;
             Elt T_BOOLEAN false false false [120] (DMem 3 1) 1;
             Elt T_ARRAY false false false [121]
               (DElts [Elt T_NULL false false false [] DNull 0;
                       Elt T_NUMBER false false false [] (DMem 1 8) 0]) 0]) 0].
Definition ex_vals : list val :=
  [VStr [99; 111; 110; 110; 101; 99; 116]; VNum num1;
   VObj [([97; 112; 112], VStr [97; 112; 112]); ([120], VBool 1); ([121], VArr [VNull; VNum num1])]].
Definition ex_w : wctx := mkWctx [] 0 (repeat (Some 3%nat) 30).

Example C40_ex_stands : stands_list ex_mem ex_elts ex_vals.
Proof.
  unfold ex_elts, ex_vals.
  apply SL_cons; [eapply (S_str ex_mem [] 0 8 7 _ [0]); [reflexivity|reflexivity|lia]|].
  apply SL_cons; [eapply (S_num ex_mem [] 1 8 0 _ []); reflexivity|].
  apply SL_cons; [|apply SL_nil]. apply S_obj.
  apply (SF_cons ex_mem (Elt T_STRING false false false [97; 112; 112] (DMem 2 6) 0));
    [eapply (S_cstr ex_mem [97; 112; 112] 2 6 _ [0; 0]); [reflexivity|cbn; lia|cbn; lia]|discriminate|cbn; lia|].
  apply (SF_cons ex_mem (Elt T_BOOLEAN false false false [120] (DMem 3 1) 1));
    [eapply (S_bool ex_mem [120] 3 1 1 _ []); reflexivity|discriminate|cbn; lia|].
  apply (SF_cons ex_mem (Elt T_ARRAY false false false [121]
               (DElts [Elt T_NULL false false false [] DNull 0;
                       Elt T_NUMBER false false false [] (DMem 1 8) 0]) 0)); [|discriminate|cbn; lia|apply SF_nil].
  apply S_arr; [|cbn; lia].
  apply SL_cons; [apply S_null|].
  apply SL_cons; [eapply (S_num ex_mem [] 1 8 0 _ []); reflexivity|apply SL_nil].
Qed.

Example C40_ex_write :
  match write ex_mem ex_w ex_elts with
  | WOk c => wflat c = concat (map enc ex_vals) /\ length (w_bufs c) = 19%nat
  | _ => False
  end.
Proof. vm_compute. split; reflexivity. Qed.

Definition ex_read_elts : list elt :=
  [Elt T_STRING false false false [] (DMem 10 16) 16;
   Elt T_NUMBER false false false [] (DMem 11 8) 0;
   Elt T_OBJECT false false false []
     (DElts [Elt T_STRING false false false [97; 112; 112] (DMem 12 4) 4;
             Elt T_BOOLEAN false false false [120] (DMem 13 1) 0;
             Elt T_ARRAY false false false [121]
               (DElts [Elt T_NULL false false false [] DNull 0;
                       Elt T_NUMBER false false false [] (DMem 14 8) 0]) 0]) 0].
Definition ex_ctx : ctx :=
  let b := concat (map enc ex_vals) in mkCtx [firstn 5 b; []; firstn 11 (skipn 5 b); skipn 16 b ++ [77]] 0.

Example C40_ex_mirrors : mirrors_list ex_read_elts ex_vals.
Proof.
  unfold ex_read_elts, ex_vals.
  apply ML_cons; [apply M_str; cbn; lia|cbn; tauto|].
  apply ML_cons; [apply M_num; lia|cbn; tauto|].
  apply ML_cons; [|cbn; tauto|apply ML_nil]. apply M_obj.
  - apply (MF_cons (Elt T_STRING false false false [97; 112; 112] (DMem 12 4) 4));
      [apply M_str; cbn; lia|cbn; lia|].
    apply (MF_cons (Elt T_BOOLEAN false false false [120] (DMem 13 1) 0)); [apply M_bool; lia|cbn; lia|].
    apply (MF_cons (Elt T_ARRAY false false false [121]
               (DElts [Elt T_NULL false false false [] DNull 0;
                       Elt T_NUMBER false false false [] (DMem 14 8) 0]) 0)); [|cbn; lia|apply MF_nil].
    apply M_arr. apply ML_cons; [apply M_null|cbn; tauto|].
    apply ML_cons; [apply M_num; lia|cbn; tauto|apply ML_nil].
  - repeat constructor; cbn; intuition discriminate.
Qed.

Example C40_ex_read :
  let r := read 200 ex_ctx ex_read_elts in
  r_status r = SCont /\ flat (r_ctx r) = [77] /\
  map (fun i => memory_after i (repeat 255 16) (r_stores r)) [12; 14]%nat =
    [[97; 112; 112; 0; 255; 255; 255; 255; 255; 255; 255; 255; 255; 255; 255; 255];
     num1 ++ repeat 255 8].
Proof. vm_compute. split; [reflexivity|split; reflexivity]. Qed.

(* Descriptors as in ngx_rtmp_codec_module.c: a variant of a number and a
   string under one name; an unknown name of any length; a cut string. *)
Definition ex_codec : list elt :=
  [Elt T_OBJECT false false false []
     (DElts [Elt T_VARIANT false true false [99]
               (DElts [Elt T_NUMBER false false false [] (DMem 1 8) 0;
                       Elt T_STRING false false false [] (DMem 2 4) 4]) 0]) 0;
   Elt T_STRING true false false [] (DMem 3 4) 4].

Example C41_ex_ok : Forall ok_elt ex_codec /\ Forall typed_elt ex_codec /\ Forall (strings_only 2 4) ex_codec.
Proof.
  split; [|split]; repeat constructor; cbn; try lia; try discriminate;
    try (intros; split; (reflexivity || discriminate)); try (intros; lia);
    repeat constructor; discriminate.
Qed.

Example C41_ex_variant :
  let bytes := concat (map enc [VMixed [0;0;0;1] [([120; 120], VNull); ([99], VStr [97; 98; 99; 100; 101]); ([99], VNum num1)]]) in
  let r := read 200 (mkCtx [bytes] 0) ex_codec in
  r_status r = SCont /\
  r_stores r = [SMem 2 4 0 [97; 98; 99]; SMem 2 4 3 [0]; SMem 1 8 0 num1].
Proof. vm_compute. split; reflexivity. Qed.
