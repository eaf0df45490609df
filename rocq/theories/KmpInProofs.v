(* Proofs for the KMP input: the parser, with its buffers and links, is a byte
   at a time automaton on the stream. *)
From Coq Require Import ZArith List Bool Arith Lia.
From Coq Require Import ZifyBool ZifyNat.
From Verif Require Import Lists Bytes KmpInModel KmpInSpec.
Import ListNotations.
Open Scope Z_scope.

(* ---- links ---- *)

Lemma node_bytes_app a b : node_bytes (a ++ b) = node_bytes a ++ node_bytes b.
Proof. unfold node_bytes. rewrite map_app, concat_app. reflexivity. Qed.

Lemma node_bytes_cons n c : node_bytes (n :: c) = n_data n ++ node_bytes c.
Proof. reflexivity. Qed.

Lemma node_skip_spec : forall c size ok passed data,
  node_skip c size = (ok, passed, data) -> (size <= length (node_bytes c))%nat ->
  ok = true /\ node_bytes data = skipn size (node_bytes c) /\
  map n_id (passed ++ data) = map n_id c.
Proof.
  induction c as [|n c IH]; intros size ok passed data H Hle.
  - destruct size as [|size]; [|cbn in Hle; lia].
    cbn in H. inversion H; subst. auto.
  - destruct size as [|size].
    { cbn [node_skip] in H. inversion H; subst. auto. }
    cbn [node_skip] in H. rewrite node_bytes_cons in *. rewrite app_length in Hle.
    destruct (Nat.ltb (S size) (length (n_data n))) eqn:E.
    + inversion H; subst; clear H. apply Nat.ltb_lt in E.
      split; [reflexivity|]. split; [|reflexivity].
      rewrite node_bytes_cons. cbn [n_data].
      rewrite skipn_app. replace (S size - length (n_data n))%nat with 0%nat by lia. reflexivity.
    + apply Nat.ltb_ge in E.
      destruct (node_skip c (S size - length (n_data n))) as [[ok' passed'] h] eqn:E2.
      inversion H; subst; clear H.
      destruct (IH _ _ _ _ E2 ltac:(lia)) as (-> & Hd & Hi).
      split; [reflexivity|]. split.
      * rewrite Hd, skipn_app, (skipn_all2 (n_data n)) by lia. reflexivity.
      * cbn [app map]. rewrite Hi. reflexivity.
Qed.

Lemma node_copy_spec : forall c size ok buf passed data,
  node_copy c size = (ok, buf, passed, data) -> (size <= length (node_bytes c))%nat ->
  ok = true /\ buf = firstn size (node_bytes c) /\
  node_bytes data = skipn size (node_bytes c) /\
  map n_id (passed ++ data) = map n_id c.
Proof.
  induction c as [|n c IH]; intros size ok buf passed data H Hle.
  - destruct size as [|size]; [|cbn in Hle; lia].
    cbn in H. inversion H; subst. auto.
  - destruct size as [|size].
    { cbn [node_copy] in H. inversion H; subst. auto. }
    cbn [node_copy] in H. rewrite node_bytes_cons in *. rewrite app_length in Hle.
    destruct (Nat.ltb (S size) (length (n_data n))) eqn:E.
    + inversion H; subst; clear H. apply Nat.ltb_lt in E.
      split; [reflexivity|]. split; [|split; [|reflexivity]].
      * rewrite firstn_app. replace (S size - length (n_data n))%nat with 0%nat by lia.
        rewrite firstn_O, app_nil_r. reflexivity.
      * rewrite node_bytes_cons. cbn [n_data].
        rewrite skipn_app. replace (S size - length (n_data n))%nat with 0%nat by lia. reflexivity.
    + apply Nat.ltb_ge in E.
      destruct (node_copy c (S size - length (n_data n))) as [[[ok' buf'] passed'] h] eqn:E2.
      inversion H; subst; clear H.
      destruct (IH _ _ _ _ _ E2 ltac:(lia)) as (-> & Hb & Hd & Hi).
      split; [reflexivity|]. split; [|split].
      * rewrite Hb, firstn_app, (firstn_all2 (n_data n)) by lia. reflexivity.
      * rewrite Hd, skipn_app, (skipn_all2 (n_data n)) by lia. reflexivity.
      * cbn [app map]. rewrite Hi. reflexivity.
Qed.

Lemma extend_last_bytes : forall c addr chunk c',
  extend_last c addr chunk = Some c' ->
  node_bytes c' = node_bytes c ++ chunk /\ map n_id c' = map n_id c.
Proof.
  induction c as [|n c IH]; intros addr chunk c' H; [discriminate|].
  destruct c as [|n2 c].
  - cbn in H. destruct (_ =? addr); [|discriminate]. inversion H; subst.
    unfold node_bytes. cbn. rewrite !app_nil_r. auto.
  - change (extend_last (n :: n2 :: c) addr chunk) with
      (match extend_last (n2 :: c) addr chunk with Some r' => Some (n :: r') | None => None end) in H.
    destruct (extend_last (n2 :: c) addr chunk) as [r'|] eqn:E; [|discriminate].
    inversion H; subst. destruct (IH _ _ _ E) as (H1 & H2).
    rewrite node_bytes_cons, H1, (node_bytes_cons n), app_assoc. split; [reflexivity|].
    cbn [map] in *. rewrite H2. reflexivity.
Qed.

(* ---- the automaton ---- *)

Inductive flat :=
| FConn (l : list Z)
| FRun (hdr : list Z) (lft : Z) (body : list Z) (f : fltr) (evs : list event)
| FDone (f : fltr) (evs : list event) (e : rc).

Definition fmedia (o : owner) (hdr body : list Z) (f : fltr) (evs : list event) : flat :=
  if u32 (h_header_size hdr - 16) <? 32 then FDone f evs RBadRequest
  else
    let mi := firstn 32 body in
    if mi_timescale mi <=? 0 then FDone f evs RBadRequest
    else
      let data := skipn (Z.to_nat (h_header_size hdr - 16)) body in
      let evs' := EMediaInfo mi data (h_data_size hdr) :: evs in
      let f' := mkFilter (mi_timescale mi) (mi_media_type mi) (cur_frame_id f)
                  (skip_left f) (mi_media_type mi =? media_video) (skip_wait_key f)
                  (received_frames f) (received_key_frames f) (received_data_bytes f)
                  (skipped_duplicate f) (skipped_empty f) (skipped_empty_duration f)
                  (skipped_no_media_info f) (skipped_no_key f) in
      match o_media_info o evs' with
      | AOk | ADone => FRun [] 0 [] f' evs'
      | AAbort => FDone f evs' RServerError
      | AError => FDone f evs' RBadRequest
      end.

Definition fframe (o : owner) (hdr body : list Z) (f : fltr) (evs : list event) : flat :=
  if u32 (h_header_size hdr - 16) <? 24 then FDone f evs RBadRequest
  else
    let fr := parse_frame (firstn 24 body) in
    let data := skipn (Z.to_nat (h_header_size hdr - 16)) body in
    match frame_filter f fr (h_data_size hdr) with
    | (f', false) => FRun [] 0 [] (next_frame f') evs
    | (f', true) =>
        let evs' := EFrame (cur_frame_id f') (mask_flags fr) data (h_data_size hdr) :: evs in
        match o_frame o evs' with
        | AOk | ADone => FRun [] 0 [] (next_frame f') evs'
        | AAbort => FDone f' evs' RServerError
        | AError => FDone f' evs' RBadRequest
        end
    end.

Definition fconnect_data (o : owner) (hdr body : list Z) (f : fltr) (evs : list event) : flat :=
  if negb (o_has_connect_data o) then FRun [] 0 [] f evs
  else
    let evs' := EConnectData (skipn (Z.to_nat (h_header_size hdr - 104)) body) :: evs in
    match o_connect_data o evs' with
    | AOk => FRun [] 0 [] f evs'
    | AAbort => FDone f evs' RServerError
    | _ => FDone f evs' RBadRequest
    end.

Definition fpacket (o : owner) (hdr body : list Z) (f : fltr) (evs : list event) : flat :=
  let t := h_type hdr in
  if t =? pt_connect then fconnect_data o hdr body f evs
  else if t =? pt_media_info then fmedia o hdr body f evs
  else if t =? pt_frame then fframe o hdr body f evs
  else if t =? pt_null then FRun [] 0 [] f evs
  else if t =? pt_end then FDone f (EEndStream :: evs) RClosed
  else FDone f evs RBadRequest.

Definition fheader (o : owner) (hdr : list Z) (f : fltr) (evs : list event) : flat :=
  if negb (header_ok hdr) then FDone f evs RBadRequest
  else
    let lft := h_header_size hdr + h_data_size hdr - 16 in
    if lft =? 0 then fpacket o hdr [] f evs else FRun hdr lft [] f evs.

Definition fconnect (o : owner) (b : list Z) : flat :=
  if negb (h_type b =? pt_connect) then FDone filter0 [] RBadRequest
  else if (h_header_size b <? 104) || (max_header_size <? h_header_size b) then
    FDone filter0 [] RBadRequest
  else if max_data_size <? h_data_size b then FDone filter0 [] RBadRequest
  else if invalid_frame_id <=? c_initial_frame_id b then FDone filter0 [] RBadRequest
  else
    match o_connected o b with
    | inr code => FDone filter0 [] (RHandler code)
    | inl (sk, swk) =>
        let f1 := mkFilter 0 0 0 sk false swk 0 0 0 0 0 0 0 0 in
        let f2 := mkFilter 0 0 (c_initial_frame_id b) sk false swk 0 0 0 0 0 0 0 0 in
        let lft := h_header_size b + h_data_size b - 104 in
        if lft =? 0 then
          match fconnect_data o (firstn 16 b) [] f1 [] with
          | FRun h l d _ evs => FRun h l d f2 evs
          | s => s
          end
        else FRun (firstn 16 b) lft [] f2 []
    end.

Definition fbyte (o : owner) (s : flat) (b : Z) : flat :=
  match s with
  | FConn l =>
      let l' := l ++ [b] in
      if Nat.eqb (length l') 104 then fconnect o l' else FConn l'
  | FRun hdr lft body f evs =>
      if lft <=? 0 then
        let h := hdr ++ [b] in
        if Nat.eqb (length h) 16 then fheader o h f evs else FRun h lft body f evs
      else
        let body' := body ++ [b] in
        if lft - 1 =? 0 then fpacket o hdr body' f evs
        else FRun hdr (lft - 1) body' f evs
  | FDone f evs e => s
  end.

Definition fbytes (o : owner) (s : flat) (l : list Z) : flat := fold_left (fbyte o) l s.

Lemma fbytes_app o s a b : fbytes o s (a ++ b) = fbytes o (fbytes o s a) b.
Proof. apply fold_left_app. Qed.

Lemma fbytes_done o f evs e l : fbytes o (FDone f evs e) l = FDone f evs e.
Proof. induction l as [|x l IH]; [reflexivity|]. exact IH. Qed.

Lemma fbytes_cons o s x l : fbytes o s (x :: l) = fbytes o (fbyte o s x) l.
Proof. reflexivity. Qed.

(* bulk steps *)

Lemma fbytes_hdr o f evs : forall l hdr,
  (length hdr + length l < 16)%nat ->
  fbytes o (FRun hdr 0 [] f evs) l = FRun (hdr ++ l) 0 [] f evs.
Proof.
  induction l as [|x l IH]; intros hdr H; [rewrite app_nil_r; reflexivity|].
  rewrite fbytes_cons. cbn [length] in H. unfold fbyte. cbv zeta.
  change (0 <=? 0) with true. cbv iota.
  replace (Nat.eqb (length (hdr ++ [x])) 16) with false
    by (symmetry; apply Nat.eqb_neq; rewrite app_length; cbn [length]; lia).
  rewrite IH by (rewrite app_length; cbn [length]; lia).
  rewrite <- app_assoc. reflexivity.
Qed.

Lemma fbytes_hdr_full o f evs hdr l :
  (length hdr < 16)%nat -> (length hdr + length l = 16)%nat ->
  fbytes o (FRun hdr 0 [] f evs) l = fheader o (hdr ++ l) f evs.
Proof.
  intros Hl H. assert (Hne : l <> []) by (intros ->; cbn in H; lia).
  destruct (exists_last Hne) as (l' & x & ->). rewrite app_length in H. cbn [length] in H.
  rewrite fbytes_app, fbytes_hdr by lia. rewrite fbytes_cons. unfold fbyte. cbv zeta.
  change (0 <=? 0) with true. cbv iota.
  replace (Nat.eqb (length ((hdr ++ l') ++ [x])) 16) with true
    by (symmetry; apply Nat.eqb_eq; rewrite !app_length; cbn [length]; lia).
  cbn [fbytes fold_left]. rewrite <- app_assoc. reflexivity.
Qed.

Lemma fbytes_body o f evs hdr : forall l lft body,
  Z.of_nat (length l) < lft ->
  fbytes o (FRun hdr lft body f evs) l
    = FRun hdr (lft - Z.of_nat (length l)) (body ++ l) f evs.
Proof.
  induction l as [|x l IH]; intros lft body H.
  - rewrite app_nil_r. cbn [fbytes fold_left length]. f_equal. lia.
  - rewrite fbytes_cons. cbn [length] in *. unfold fbyte. cbv zeta.
    replace (lft <=? 0) with false by lia. replace (lft - 1 =? 0) with false by lia.
    rewrite IH by lia. rewrite <- app_assoc. f_equal. lia.
Qed.

Lemma fbytes_body_full o f evs hdr l lft body :
  0 < lft -> Z.of_nat (length l) = lft ->
  fbytes o (FRun hdr lft body f evs) l = fpacket o hdr (body ++ l) f evs.
Proof.
  intros H0 H. assert (Hne : l <> []) by (intros ->; cbn in H; lia).
  destruct (exists_last Hne) as (l' & x & ->). rewrite app_length in H. cbn [length] in H.
  rewrite fbytes_app, fbytes_body by lia. rewrite fbytes_cons. unfold fbyte. cbv zeta.
  replace (lft - Z.of_nat (length l') <=? 0) with false by lia.
  replace (lft - Z.of_nat (length l') - 1 =? 0) with true by lia.
  cbn [fbytes fold_left]. rewrite <- app_assoc. reflexivity.
Qed.

Lemma fbytes_conn o : forall l c,
  (length c + length l < 104)%nat -> fbytes o (FConn c) l = FConn (c ++ l).
Proof.
  induction l as [|x l IH]; intros c H; [rewrite app_nil_r; reflexivity|].
  rewrite fbytes_cons. cbn [length] in H. unfold fbyte. cbv zeta.
  replace (Nat.eqb (length (c ++ [x])) 104) with false
    by (symmetry; apply Nat.eqb_neq; rewrite app_length; cbn [length]; lia).
  rewrite IH by (rewrite app_length; cbn [length]; lia).
  rewrite <- app_assoc. reflexivity.
Qed.

Lemma fbytes_conn_full o l c :
  (length c < 104)%nat -> (length c + length l = 104)%nat ->
  fbytes o (FConn c) l = fconnect o (c ++ l).
Proof.
  intros Hc H. assert (Hne : l <> []) by (intros ->; cbn in H; lia).
  destruct (exists_last Hne) as (l' & x & ->). rewrite app_length in H. cbn [length] in H.
  rewrite fbytes_app, fbytes_conn by lia. rewrite fbytes_cons. unfold fbyte. cbv zeta.
  replace (Nat.eqb (length ((c ++ l') ++ [x])) 104) with true
    by (symmetry; apply Nat.eqb_eq; rewrite !app_length; cbn [length]; lia).
  cbn [fbytes fold_left]. rewrite <- app_assoc. reflexivity.
Qed.

(* ---- header fields ---- *)

Lemma bytes_firstn n l : bytes l -> bytes (firstn n l).
Proof. intros H. apply Forall_forall. intros x Hx. apply (proj1 (Forall_forall _ _) H). rewrite <- (firstn_skipn n l). apply in_or_app. auto. Qed.

Lemma bytes_skipn n l : bytes l -> bytes (skipn n l).
Proof. intros H. apply Forall_forall. intros x Hx. apply (proj1 (Forall_forall _ _) H). rewrite <- (firstn_skipn n l). apply in_or_app. auto. Qed.

Lemma bytes_app a b : bytes (a ++ b) <-> bytes a /\ bytes b.
Proof. apply Forall_app. Qed.

Lemma field_bound off len l : bytes l -> 0 <= field off len l < 256 ^ Z.of_nat len.
Proof.
  intros H. unfold field.
  pose proof (unle_bound (firstn len (skipn off l)) (bytes_firstn _ _ (bytes_skipn _ _ H))) as B.
  split; [lia|]. eapply Z.lt_le_trans; [apply B|].
  apply Z.pow_le_mono_r; [lia|]. pose proof (firstn_le_length len (skipn off l)). lia.
Qed.

Lemma header_size_bound h : bytes h -> 0 <= h_header_size h < 2 ^ 32.
Proof. intros H. pose proof (field_bound 4 4 h H) as B. unfold h_header_size. cbn in B |- *. lia. Qed.
Lemma data_size_bound h : bytes h -> 0 <= h_data_size h < 2 ^ 32.
Proof. intros H. pose proof (field_bound 8 4 h H) as B. unfold h_data_size. cbn in B |- *. lia. Qed.

Lemma u32_small z : 0 <= z < 2 ^ 32 -> u32 z = z.
Proof. intros H. unfold u32. apply Z.mod_small. exact H. Qed.

Lemma header_ok_inv h : bytes h -> header_ok h = true ->
  16 <= h_header_size h <= 65536 /\ 0 <= h_data_size h <= 16777216.
Proof.
  intros Hb H. unfold header_ok in H. cbv zeta in H.
  pose proof (data_size_bound h Hb) as B.
  repeat (apply andb_true_iff in H; destruct H as [H ?]).
  unfold packet_header_size, max_header_size, max_data_size in *. lia.
Qed.

(* the size of the body of a complete packet *)
Definition body_size (h : list Z) (n : Z) : Prop :=
  16 <= h_header_size h <= 65536 /\ 0 <= h_data_size h <= 16777216 /\
  (n = h_header_size h + h_data_size h - 16 \/
   (h_type h = pt_connect /\ 104 <= h_header_size h /\
    n = h_header_size h + h_data_size h - 104)).

(* ---- simulation ---- *)

Definition pinv (p : parser) : Prop :=
  length (p_header p) = 16%nat /\ bytes (p_header p) /\ (p_header_pos p < 16)%nat /\
  0 <= p_left p /\
  (p_left p = 0 -> p_data p = []) /\
  (0 < p_left p -> p_header_pos p = 0%nat /\
     body_size (p_header p) (Z.of_nat (length (node_bytes (p_data p))) + p_left p)).

Definition fview (p : parser) : flat :=
  FRun (if p_left p <=? 0 then firstn (p_header_pos p) (p_header p) else p_header p)
    (p_left p) (node_bytes (p_data p)) (p_filter p) (events p).

Definition view (p : parser) (e : rc) : flat :=
  match e with
  | ROk => fview p
  | _ => FDone (p_filter p) (events p) e
  end.

Lemma copy_header_sim p size p1 r :
  body_size (p_header p) (Z.of_nat (length (node_bytes (p_data p)))) ->
  h_type (p_header p) <> pt_connect ->
  copy_packet_header p size = (p1, r) ->
  p_header p1 = p_header p /\ p_header_pos p1 = p_header_pos p /\ p_left p1 = p_left p /\
  p_filter p1 = p_filter p /\ p_calls p1 = p_calls p /\
  if u32 (h_header_size (p_header p) - 16) <? Z.of_nat size then r = inr RBadRequest
  else
    r = inl (firstn size (node_bytes (p_data p))) /\
    node_bytes (p_data p1)
      = skipn (Z.to_nat (h_header_size (p_header p) - 16)) (node_bytes (p_data p)).
Proof.
  intros (Hh & Hd & Hn) Ht H. destruct Hn as [Hn|[Hn _]]; [|contradiction].
  unfold copy_packet_header in H. change (Z.of_nat packet_header_size) with 16 in H.
  cbv zeta in H. rewrite u32_small in * by lia.
  destruct (h_header_size (p_header p) - 16 <? Z.of_nat size) eqn:E.
  { inversion H; subst. auto 10. }
  destruct (node_copy (p_data p) size) as [[[ok buf] passed1] data1] eqn:E1.
  destruct (node_copy_spec _ _ _ _ _ _ E1 ltac:(lia)) as (-> & -> & Hd1 & Hi1).
  cbn [negb] in H.
  assert (Hsz : length (node_bytes data1) = (length (node_bytes (p_data p)) - size)%nat)
    by (rewrite Hd1, skipn_length; reflexivity).
  destruct (0 <? h_header_size (p_header p) - 16 - Z.of_nat size) eqn:E2.
  - destruct (node_skip data1 _) as [[ok2 passed2] data] eqn:E3.
    destruct (node_skip_spec _ _ _ _ _ E3 ltac:(lia)) as (-> & Hd2 & Hi2).
    cbn [negb] in H.
    assert (Hb : node_bytes data
      = skipn (Z.to_nat (h_header_size (p_header p) - 16)) (node_bytes (p_data p))).
    { rewrite Hd2, Hd1, skipn_skipn_add. f_equal. lia. }
    destruct (passed1 ++ passed2); inversion H; subst; cbn; auto 10.
  - cbn [negb] in H.
    assert (Hb : node_bytes data1
      = skipn (Z.to_nat (h_header_size (p_header p) - 16)) (node_bytes (p_data p))).
    { rewrite Hd1. f_equal. lia. }
    destruct (passed1 ++ []); inversion H; subst; cbn; auto 10.
Qed.

(* after a packet: everything but the header is reset *)
Definition packet_post (o : owner) (p p1 : parser) (e : rc) : Prop :=
  p_header p1 = p_header p /\ p_header_pos p1 = p_header_pos p /\ p_left p1 = p_left p /\
  e <> RFuel.

Lemma connect_data_sim o p p1 e :
  (h_header_size (p_header p) - 104 <= Z.of_nat (length (node_bytes (p_data p)))) ->
  connect_data o p = (p1, e) ->
  packet_post o p p1 e /\
  fconnect_data o (p_header p) (node_bytes (p_data p)) (p_filter p) (events p)
    = match e with ROk => FRun [] 0 [] (p_filter p1) (events p1)
      | _ => FDone (p_filter p1) (events p1) e end.
Proof.
  intros Hle H. unfold connect_data, fconnect_data in *.
  destruct (o_has_connect_data o); cbn [negb] in *.
  2:{ inversion H; subst. split; [|reflexivity]. unfold packet_post. intuition congruence. }
  change (Z.of_nat connect_packet_size) with 104 in H. cbv zeta in *.
  destruct (if 104 <? h_header_size (p_header p) then
              node_skip (p_data p) (Z.to_nat (h_header_size (p_header p) - 104))
            else (true, [], p_data p)) as [[ok passed] data] eqn:E.
  assert (Hs : ok = true /\
    node_bytes data = skipn (Z.to_nat (h_header_size (p_header p) - 104)) (node_bytes (p_data p))).
  { destruct (104 <? h_header_size (p_header p)) eqn:E1.
    - destruct (node_skip_spec _ _ _ _ _ E ltac:(lia)) as (-> & Hd & _). auto.
    - inversion E; subst. replace (Z.to_nat (h_header_size (p_header p) - 104)) with 0%nat by lia.
      auto. }
  destruct Hs as (-> & Hd). cbn [negb] in H.
  assert (Hev : EConnectData (skipn (Z.to_nat (h_header_size (p_header p) - 104))
                  (node_bytes (p_data p))) :: events p
     = events (add_call (set_data p (passed ++ data) (p_links p)) (CConnectData data))).
  { unfold events, add_call, set_data. cbn. rewrite Hd. reflexivity. }
  rewrite Hev.
  destruct (o_connect_data o (events _)); inversion H; subst; clear H;
    (split; [unfold packet_post; cbn; intuition congruence|reflexivity]).
Qed.

Lemma media_info_sim o p p1 e :
  body_size (p_header p) (Z.of_nat (length (node_bytes (p_data p)))) ->
  h_type (p_header p) <> pt_connect ->
  media_info o p = (p1, e) ->
  packet_post o p p1 e /\
  fmedia o (p_header p) (node_bytes (p_data p)) (p_filter p) (events p)
    = match e with ROk => FRun [] 0 [] (p_filter p1) (events p1)
      | _ => FDone (p_filter p1) (events p1) e end.
Proof.
  intros Hb Ht H. unfold media_info, fmedia in *.
  destruct (copy_packet_header p media_info_size) as [q r] eqn:E.
  destruct (copy_header_sim _ _ _ _ Hb Ht E) as (H1 & H2 & H3 & H4 & H5 & H6).
  change (Z.of_nat media_info_size) with 32 in H6.
  assert (Hevq : events q = events p) by (unfold events; rewrite H5; reflexivity).
  destruct (u32 (h_header_size (p_header p) - 16) <? 32).
  - subst r. inversion H; subst. rewrite H4, Hevq.
    split; [|reflexivity]. unfold packet_post. intuition congruence.
  - destruct H6 as (-> & Hd). change media_info_size with 32%nat in H. cbv zeta in *.
    set (mi := firstn 32 (node_bytes (p_data p))) in *.
    destruct (mi_timescale mi <=? 0).
    { inversion H; subst. rewrite H4, Hevq.
      split; [|reflexivity]. unfold packet_post. intuition congruence. }
    assert (Hev : EMediaInfo mi
         (skipn (Z.to_nat (h_header_size (p_header p) - 16)) (node_bytes (p_data p)))
         (h_data_size (p_header p)) :: events p
       = events (add_call q (CMediaInfo mi (p_data q) (h_data_size (p_header q))))).
    { unfold events, add_call. cbn. rewrite Hd, H1, H5. reflexivity. }
    rewrite Hev.
    destruct (o_media_info o (events _)); inversion H; subst; clear H;
      (split; [unfold packet_post; cbn; intuition congruence|]);
      cbn [set_filter set_data add_call p_filter p_calls events]; rewrite ?H4; reflexivity.
Qed.

Lemma frame_packet_sim o p p1 e :
  body_size (p_header p) (Z.of_nat (length (node_bytes (p_data p)))) ->
  h_type (p_header p) <> pt_connect ->
  frame_packet o p = (p1, e) ->
  packet_post o p p1 e /\
  fframe o (p_header p) (node_bytes (p_data p)) (p_filter p) (events p)
    = match e with ROk => FRun [] 0 [] (p_filter p1) (events p1)
      | _ => FDone (p_filter p1) (events p1) e end.
Proof.
  intros Hb Ht H. unfold frame_packet, fframe in *.
  destruct (copy_packet_header p frame_size) as [q r] eqn:E.
  destruct (copy_header_sim _ _ _ _ Hb Ht E) as (H1 & H2 & H3 & H4 & H5 & H6).
  change (Z.of_nat frame_size) with 24 in H6.
  assert (Hevq : events q = events p) by (unfold events; rewrite H5; reflexivity).
  destruct (u32 (h_header_size (p_header p) - 16) <? 24).
  - subst r. inversion H; subst. rewrite H4, Hevq.
    split; [|reflexivity]. unfold packet_post. intuition congruence.
  - destruct H6 as (-> & Hd). change frame_size with 24%nat in H. cbv zeta in *.
    set (fr := parse_frame (firstn 24 (node_bytes (p_data p)))) in *.
    rewrite H4, H1 in H.
    destruct (frame_filter (p_filter p) fr (h_data_size (p_header p))) as [f' [|]] eqn:Ef.
    2:{ inversion H; subst. cbn [set_filter p_filter]. 
        split; [unfold packet_post; cbn; intuition congruence|].
        unfold events in *. cbn. rewrite H5. reflexivity. }
    assert (Hev : EFrame (cur_frame_id f') (mask_flags fr)
         (skipn (Z.to_nat (h_header_size (p_header p) - 16)) (node_bytes (p_data p)))
         (h_data_size (p_header p)) :: events p
       = events (add_call (set_filter q f')
           (CFrame (cur_frame_id f') (mask_flags fr) (p_data q) (h_data_size (p_header p))))).
    { unfold events, add_call. cbn. rewrite Hd, H5. reflexivity. }
    rewrite Hev.
    destruct (o_frame o (events _)); inversion H; subst; clear H;
      (split; [unfold packet_post; cbn; intuition congruence|reflexivity]).
Qed.

Lemma packet_sim o p p1 e :
  body_size (p_header p) (Z.of_nat (length (node_bytes (p_data p)))) ->
  packet o p = (p1, e) ->
  packet_post o p p1 e /\ (e = ROk -> p_data p1 = []) /\
  fpacket o (p_header p) (node_bytes (p_data p)) (p_filter p) (events p)
    = match e with ROk => FRun [] 0 [] (p_filter p1) (events p1)
      | _ => FDone (p_filter p1) (events p1) e end.
Proof.
  intros Hb H. unfold packet in H. cbv zeta in H.
  match goal with H : (match ?r with _ => _ end) = _ |- _ => destruct r as [q e1] eqn:E end.
  assert (Hq : packet_post o p q e1 /\
    fpacket o (p_header p) (node_bytes (p_data p)) (p_filter p) (events p)
      = match e1 with ROk => FRun [] 0 [] (p_filter q) (events q)
        | _ => FDone (p_filter q) (events q) e1 end).
  { unfold fpacket. cbv zeta.
    destruct (h_type (p_header p) =? pt_connect) eqn:E1.
    { apply (connect_data_sim o p q e1); [unfold body_size in Hb; lia|exact E]. }
    apply Z.eqb_neq in E1.
    destruct (h_type (p_header p) =? pt_media_info); [apply (media_info_sim _ _ _ _ Hb E1 E)|].
    destruct (h_type (p_header p) =? pt_frame); [apply (frame_packet_sim _ _ _ _ Hb E1 E)|].
    unfold packet_post.
    destruct (h_type (p_header p) =? pt_null); [inversion E; subst; intuition congruence|].
    destruct (h_type (p_header p) =? pt_end);
      (inversion E; subst; cbn; split; [intuition congruence|reflexivity]). }
  destruct Hq as (Hq & Hf). rewrite Hf. unfold packet_post in *.
  destruct e1; [destruct (p_data q) eqn:Ed|..]; inversion H; subst;
    cbn; intuition congruence.
Qed.

Definition turn_ok (o : owner) (p : parser) (l : list Z)
    (r : (parser * buf) + (parser * rc)) : Prop :=
  match r with
  | inl (p1, b1) =>
      pinv p1 /\ exists l1, l = l1 ++ b_bytes b1 /\ l1 <> [] /\ fbytes o (fview p) l1 = fview p1
  | inr (p1, e) =>
      (e = ROk -> pinv p1) /\ e <> RFuel /\ fbytes o (fview p) l = view p1 e
  end.

Lemma overwrite_length h pos src :
  (pos + length src <= length h)%nat -> length (overwrite h pos src) = length h.
Proof.
  intros H. unfold overwrite. rewrite !app_length, firstn_length, skipn_length. lia.
Qed.

Lemma overwrite_bytes h pos src : bytes h -> bytes src -> bytes (overwrite h pos src).
Proof.
  intros H1 H2. unfold overwrite. apply bytes_app. split; [apply bytes_firstn, H1|].
  apply bytes_app. split; [exact H2|apply bytes_skipn, H1].
Qed.

Lemma overwrite_prefix h pos src :
  (pos <= length h)%nat ->
  firstn (pos + length src) (overwrite h pos src) = firstn pos h ++ src.
Proof.
  intros H. unfold overwrite. rewrite app_assoc.
  assert (Hl : (pos + length src)%nat = length (firstn pos h ++ src))
    by (rewrite app_length, firstn_length; lia).
  rewrite Hl, firstn_app_exact. reflexivity.
Qed.

Lemma overwrite_full h pos src :
  length h = (pos + length src)%nat -> overwrite h pos src = firstn pos h ++ src.
Proof.
  intros H. unfold overwrite. rewrite skipn_all2 by lia. rewrite app_nil_r. reflexivity.
Qed.

Lemma link_data_sim o p addr chunk p1 :
  link_data o p addr chunk = Some p1 ->
  p_header p1 = p_header p /\ p_header_pos p1 = p_header_pos p /\ p_left p1 = p_left p /\
  p_filter p1 = p_filter p /\ p_calls p1 = p_calls p /\
  node_bytes (p_data p1) = node_bytes (p_data p) ++ chunk.
Proof.
  intros H. unfold link_data in H.
  destruct (extend_last (p_data p) addr chunk) as [c|] eqn:E.
  - inversion H; subst. cbn. destruct (extend_last_bytes _ _ _ _ E). auto 10.
  - destruct (o_alloc o _); [|discriminate]. inversion H; subst.
    cbn [set_data p_header p_header_pos p_left p_data p_filter p_calls].
    rewrite node_bytes_app, node_bytes_cons. cbn [n_data node_bytes map concat].
    rewrite app_nil_r. auto 10.
Qed.

(* the part of a turn after the packet header *)
Lemma body_sim o p b :
  has_links o -> length (p_header p) = 16%nat -> bytes (p_header p) ->
  p_header_pos p = 0%nat -> 0 <= p_left p ->
  body_size (p_header p) (Z.of_nat (length (node_bytes (p_data p))) + p_left p) ->
  (p_left p = 0 -> p_data p = []) ->
  let s := if p_left p =? 0 then fpacket o (p_header p) [] (p_filter p) (events p)
           else FRun (p_header p) (p_left p) (node_bytes (p_data p)) (p_filter p) (events p) in
  match read_packet_data o p b with
  | inr p2 => False
  | inl (p2, b2, false) => pinv p2 /\ fbytes o s (b_bytes b) = fview p2
  | inl (p2, b2, true) =>
      match packet o p2 with
      | (p3, ROk) =>
          pinv p3 /\ exists l1, b_bytes b = l1 ++ b_bytes b2 /\ fbytes o s l1 = fview p3 /\
            (l1 = [] -> p_left p = 0)
      | (p3, e) => e <> RFuel /\ fbytes o s (b_bytes b) = view p3 e
      end
  end.
Proof.
  intros Hal Hlen Hby Hpos Hleft Hbody Hnil s. unfold read_packet_data. cbv zeta.
  set (size := Nat.min (length (b_bytes b)) (Z.to_nat (p_left p))).
  destruct (Nat.ltb 0 size) eqn:Esz.
  - apply Nat.ltb_lt in Esz.
    assert (Hl0 : 0 < p_left p) by lia.
    assert (Es : (p_left p =? 0) = false) by lia.
    destruct (link_data o p (b_addr b) (firstn size (b_bytes b))) as [p1|] eqn:E1.
    2:{ unfold link_data in E1. destruct (extend_last _ _ _); [discriminate|].
        rewrite Hal in E1. discriminate. }
    destruct (link_data_sim _ _ _ _ _ E1) as (H1 & H2 & H3 & H4 & H5 & H6).
    assert (Hfl : length (firstn size (b_bytes b)) = size) by (rewrite firstn_length; lia).
    cbn [set_left p_left]. rewrite H3.
    assert (Hev : events p1 = events p) by (unfold events; rewrite H5; reflexivity).
    destruct (0 <? p_left p - Z.of_nat size) eqn:Ecm; cbn [negb].
    + (* the packet is not complete *)
      assert (Hsz : size = length (b_bytes b)) by lia.
      assert (Hf : firstn size (b_bytes b) = b_bytes b) by (rewrite Hsz; apply firstn_all).
      rewrite Hf in *.
      split.
      * unfold pinv. cbn [set_left p_header p_header_pos p_left p_data]. rewrite H1, H2, H6, app_length.
        repeat split; auto; try lia.
        -- apply Hbody. -- apply Hbody. -- apply Hbody. -- apply Hbody.
        -- destruct Hbody as (_ & _ & Hbody). rewrite Hfl. lia.
      * unfold s. rewrite Es. rewrite fbytes_body by lia. unfold fview. cbn [set_left p_header p_left p_data p_filter].
        replace (p_left p - Z.of_nat size <=? 0) with false by lia.
        rewrite H1, H4, H6. unfold events in *. cbn [set_left p_calls]. rewrite H5, Hsz. reflexivity.
    + assert (Hsz : Z.of_nat size = p_left p) by lia.
      set (p2 := set_left p1 (p_left p - Z.of_nat size)).
      assert (Hb2 : body_size (p_header p2) (Z.of_nat (length (node_bytes (p_data p2))))).
      { unfold p2. cbn [set_left p_header p_data]. rewrite H1, H6, app_length, Hfl.
        replace (Z.of_nat (length (node_bytes (p_data p)) + size))
          with (Z.of_nat (length (node_bytes (p_data p))) + p_left p) by lia. exact Hbody. }
      destruct (packet o p2) as [p3 e] eqn:Ep.
      destruct (packet_sim _ _ _ _ Hb2 Ep) as ((Q1 & Q2 & Q3 & Q4) & Q5 & Q6).
      assert (Hs : fbytes o s (firstn size (b_bytes b))
        = match e with ROk => FRun [] 0 [] (p_filter p3) (events p3)
          | _ => FDone (p_filter p3) (events p3) e end).
      { unfold s. rewrite Es. rewrite fbytes_body_full by lia. rewrite <- Q6.
        unfold p2. cbn [set_left p_header p_data p_filter]. rewrite H1, H4, H6.
        unfold events in *. cbn [set_left p_calls]. rewrite H5. reflexivity. }
      assert (Hlast : e <> ROk -> e <> RFuel /\ fbytes o s (b_bytes b) = view p3 e).
      { intros He. split; [exact Q4|].
        rewrite <- (firstn_skipn size (b_bytes b)) at 1. rewrite fbytes_app, Hs.
        destruct e; try contradiction; rewrite fbytes_done; reflexivity. }
      destruct e; try (apply Hlast; discriminate).
      split.
      * unfold pinv. unfold p2 in Q1, Q2, Q3. cbn [set_left p_header p_header_pos p_left] in Q1, Q2, Q3.
        rewrite Q1, Q2, Q3, H1, H2, Hpos.
        repeat split; auto; lia.
      * exists (firstn size (b_bytes b)). split; [|split].
        -- cbn [buf_skip b_bytes]. symmetry. apply firstn_skipn.
        -- rewrite Hs. unfold fview. unfold p2 in Q2, Q3. cbn [set_left p_header_pos p_left] in Q2, Q3.
           rewrite Q2, Q3, H2, Hpos, (Q5 eq_refl).
           replace (p_left p - Z.of_nat size) with 0 by lia.
           reflexivity.
        -- intros E. rewrite E in Hfl. cbn in Hfl. lia.
  - apply Nat.ltb_ge in Esz.
    destruct (0 <? p_left p) eqn:El; cbn [negb].
    + assert (Hn : b_bytes b = []) by (apply length_zero_iff_nil; unfold size in Esz; lia).
      assert (Es : (p_left p =? 0) = false) by lia.
      split.
      * unfold pinv. rewrite Hpos. repeat split; auto; try lia; apply Hbody.
      * rewrite Hn. unfold s, fview. rewrite Es. replace (p_left p <=? 0) with false by lia. reflexivity.
    + assert (Hl0 : p_left p = 0) by lia.
      assert (Es : (p_left p =? 0) = true) by lia.
      assert (Hb2 : body_size (p_header p) (Z.of_nat (length (node_bytes (p_data p))))).
      { replace (Z.of_nat (length (node_bytes (p_data p))))
          with (Z.of_nat (length (node_bytes (p_data p))) + p_left p) by lia. exact Hbody. }
      destruct (packet o p) as [p3 e] eqn:Ep.
      destruct (packet_sim _ _ _ _ Hb2 Ep) as ((Q1 & Q2 & Q3 & Q4) & Q5 & Q6).
      rewrite (Hnil Hl0) in Q6. change (node_bytes []) with (@nil Z) in Q6.
      assert (Hlast : e <> ROk -> e <> RFuel /\ fbytes o s (b_bytes b) = view p3 e).
      { intros He. split; [exact Q4|]. unfold s. rewrite Es. rewrite Q6.
        destruct e; try contradiction; rewrite fbytes_done; reflexivity. }
      destruct e; try (apply Hlast; discriminate).
      split.
      * unfold pinv. rewrite Q1, Q2, Q3, Hpos. repeat split; auto; lia.
      * exists []. split; [reflexivity|]. split; [|auto].
        change (fbytes o s []) with s. unfold s. rewrite Es. rewrite Q6. unfold fview.
        rewrite Q2, Q3, Hpos, (Q5 eq_refl), Hl0. reflexivity.
Qed.

Lemma turn_sim o p b :
  has_links o -> pinv p -> bytes (b_bytes b) -> b_bytes b <> [] ->
  turn_ok o p (b_bytes b) (turn o p b).
Proof.
  intros Hal (Hlen & Hby & Hpos & Hl & Hnil & Hbody) Hbs Hne. unfold turn, turn_ok. cbv zeta.
  destruct (p_left p <=? 0) eqn:El.
  - assert (Hl0 : p_left p = 0) by lia.
    assert (Hv : fview p = FRun (firstn (p_header_pos p) (p_header p)) 0 [] (p_filter p) (events p)).
    { unfold fview. rewrite El, Hl0, (Hnil Hl0). reflexivity. }
    unfold read_packet_header. cbv zeta. unfold packet_header_size.
    set (hl := (16 - p_header_pos p)%nat).
    assert (Hfp : length (firstn (p_header_pos p) (p_header p)) = p_header_pos p)
      by (rewrite firstn_length; lia).
    destruct (Nat.ltb (length (b_bytes b)) hl) eqn:E.
    + apply Nat.ltb_lt in E. split; [|split; [discriminate|]].
      * intros _. unfold pinv. cbn [p_header p_header_pos p_left p_data].
        rewrite overwrite_length by lia.
        repeat split; auto; try lia. apply overwrite_bytes; assumption.
      * rewrite Hv, fbytes_hdr by lia. unfold view, fview. cbn [p_header p_header_pos p_left p_data p_filter].
        rewrite El, overwrite_prefix by lia. rewrite Hl0, (Hnil Hl0). reflexivity.
    + apply Nat.ltb_ge in E.
      assert (Hff : length (firstn hl (b_bytes b)) = hl) by (rewrite firstn_length; lia).
      set (h := overwrite (p_header p) (p_header_pos p) (firstn hl (b_bytes b))).
      assert (Hh : h = firstn (p_header_pos p) (p_header p) ++ firstn hl (b_bytes b)).
      { apply overwrite_full. lia. }
      assert (Hhl : length h = 16%nat) by (unfold h; rewrite overwrite_length; lia).
      assert (Hhb : bytes h).
      { apply overwrite_bytes; [exact Hby|apply bytes_firstn, Hbs]. }
      assert (Hst : fbytes o (fview p) (firstn hl (b_bytes b)) = fheader o h (p_filter p) (events p)).
      { rewrite Hv, fbytes_hdr_full, Hh by lia. reflexivity. }
      assert (Hsplit : forall s, fbytes o s (b_bytes b)
        = fbytes o (fbytes o s (firstn hl (b_bytes b))) (skipn hl (b_bytes b))).
      { intros s. rewrite <- fbytes_app, firstn_skipn. reflexivity. }
      unfold fheader in Hst.
      destruct (negb (header_ok h)) eqn:Eh.
      * split; [discriminate|]. split; [discriminate|].
        rewrite Hsplit, Hst, fbytes_done. reflexivity.
      * apply negb_false_iff in Eh. destruct (header_ok_inv h Hhb Eh) as (B1 & B2).
        change (Z.of_nat 16) with 16. rewrite u32_small by lia.
        set (lft := h_header_size h + h_data_size h - 16) in *.
        set (p1 := mkParser h 0 lft (p_data p) (p_filter p) (p_links p) (p_calls p)).
        assert (Hd : p_data p1 = []) by (unfold p1; cbn; auto).
        pose proof (body_sim o p1 (buf_skip b hl) Hal Hhl Hhb eq_refl) as S.
        cbn [p1 p_left p_header p_data p_filter] in S.
        specialize (S ltac:(lia)).
        rewrite (Hnil Hl0) in S. specialize (S ltac:(unfold body_size, lft; cbn [node_bytes map concat length Z.of_nat]; lia)).
        specialize (S ltac:(auto)). cbv zeta in S.
        unfold p1 in *. rewrite (Hnil Hl0) in *.
        destruct (read_packet_data o _ (buf_skip b hl)) as [[[p2 b2] [|]]|p2] eqn:Er.
        -- destruct (packet o p2) as [p3 e] eqn:Ep.
           destruct e; try (split; [discriminate|]; split; [discriminate|];
             rewrite Hsplit, Hst; apply S); try (exfalso; destruct S as (S & _); apply S; reflexivity).
           destruct S as (S1 & l1 & S2 & S3 & _). split; [exact S1|].
           exists (firstn hl (b_bytes b) ++ l1). split; [|split].
           ++ rewrite <- app_assoc, <- S2. cbn [buf_skip b_bytes]. symmetry. apply firstn_skipn.
           ++ intros E'. apply app_eq_nil in E'. destruct E' as (E' & _).
              rewrite E' in Hff. unfold hl in Hff. cbn [length] in Hff. lia.
           ++ rewrite fbytes_app, Hst. exact S3.
        -- destruct S as (S1 & S2). split; [auto|]. split; [discriminate|].
           rewrite Hsplit, Hst. exact S2.
        -- contradiction.
  - assert (Hl0 : 0 < p_left p) by lia. destruct (Hbody Hl0) as (Hp0 & Hb).
    pose proof (body_sim o p b Hal Hlen Hby Hp0 Hl Hb Hnil) as S. cbv zeta in S.
    replace (p_left p =? 0) with false in S by lia.
    assert (Hv : fview p = FRun (p_header p) (p_left p) (node_bytes (p_data p)) (p_filter p) (events p)).
    { unfold fview. rewrite El. reflexivity. }
    rewrite <- Hv in S.
    destruct (read_packet_data o p b) as [[[p2 b2] [|]]|p2] eqn:Er.
    + destruct (packet o p2) as [p3 e] eqn:Ep.
      destruct e; try (split; [discriminate|]; split; [discriminate|]; apply S);
        try (exfalso; destruct S as (S & _); apply S; reflexivity).
      destruct S as (S1 & l1 & S2 & S3 & S4). split; [exact S1|].
      exists l1. split; [exact S2|]. split; [|exact S3].
      intros E'. specialize (S4 E'). lia.
    + destruct S as (S1 & S2). split; [auto|]. split; [discriminate|exact S2].
    + contradiction.
Qed.

Lemma process_loop_sim o : has_links o -> forall fuel p b p1 e,
  pinv p -> bytes (b_bytes b) -> (length (b_bytes b) < fuel)%nat ->
  process_loop o fuel p b = (p1, e) ->
  (e = ROk -> pinv p1) /\ e <> RFuel /\ fbytes o (fview p) (b_bytes b) = view p1 e.
Proof.
  intros Hal. induction fuel as [|fuel IH]; intros p b p1 e Hp Hb Hf H; [lia|].
  cbn [process_loop] in H. destruct (b_bytes b) as [|x l] eqn:Eb.
  - inversion H; subst. split; [auto|]. split; [discriminate|reflexivity].
  - rewrite <- Eb in *.
    pose proof (turn_sim o p b Hal Hp Hb ltac:(congruence)) as T. unfold turn_ok in T.
    destruct (turn o p b) as [[p2 b2]|[p2 e2]].
    + destruct T as (T1 & l1 & T2 & T3 & T4).
      rewrite T2 in Hb. apply bytes_app in Hb.
      assert (Hl : (length (b_bytes b2) < fuel)%nat).
      { rewrite T2, app_length in Hf. destruct l1; [congruence|cbn in Hf; lia]. }
      destruct (IH _ _ _ _ T1 (proj2 Hb) Hl H) as (R1 & R2 & R3).
      split; [exact R1|]. split; [exact R2|].
      rewrite T2, fbytes_app, T4. exact R3.
    + inversion H; subst. exact T.
Qed.

(* ---- the connection ---- *)

Definition cinv (c : conn) : Prop :=
  if c_header_read c then pinv (c_parser c)
  else (length (c_buffer c) < 104)%nat /\ bytes (c_buffer c) /\ c_parser c = c_parser conn0.

Definition cview (c : conn) (e : option rc) : flat :=
  match e with
  | Some e => FDone (p_filter (c_parser c)) (events (c_parser c)) e
  | None => if c_header_read c then fview (c_parser c) else FConn (c_buffer c)
  end.

Lemma conn0_inv : cinv conn0.
Proof. cbn. split; [lia|]. split; [constructor|reflexivity]. Qed.

Lemma field_firstn off len n l : (off + len <= n)%nat -> field off len (firstn n l) = field off len l.
Proof.
  intros H. unfold field. f_equal. rewrite skipn_firstn_comm, firstn_firstn.
  f_equal. lia.
Qed.

Lemma read_header_sim o c data c1 r :
  cinv c -> c_header_read c = false -> bytes data -> data <> [] ->
  (length (c_buffer c) + length data <= 104)%nat ->
  read_header o c data = (c1, r) ->
  match r with
  | Some ROk | None => cinv c1 /\ fbytes o (cview c None) data = cview c1 None
  | Some e => e <> RFuel /\ fbytes o (cview c None) data = cview c1 (Some e)
  end.
Proof.
  intros Hc Hr Hb Hne Hle H. unfold cinv in Hc. rewrite Hr in Hc. destruct Hc as (Hl & Hcb & Hp).
  unfold read_header in H. cbv zeta in H.
  set (b := c_buffer c ++ data) in *.
  assert (Hbb : bytes b) by (apply bytes_app; auto).
  assert (Hcv : cview c None = FConn (c_buffer c)) by (unfold cview; rewrite Hr; reflexivity).
  rewrite Hcv. unfold connect_packet_size in H.
  destruct (Nat.ltb (length b) 104) eqn:E.
  { apply Nat.ltb_lt in E. inversion H; subst. unfold b in E. rewrite app_length in E.
    split; [unfold cinv; cbn [c_header_read c_buffer c_parser]; split; [unfold b; rewrite app_length; lia|auto]|].
    cbn [cview c_header_read c_buffer]. apply fbytes_conn. lia. }
  apply Nat.ltb_ge in E.
  assert (Hbl : length b = 104%nat) by (unfold b in *; rewrite app_length in *; lia).
  rewrite fbytes_conn_full by (unfold b in Hbl; rewrite app_length in Hbl; lia).
  fold b. unfold fconnect. change (Z.of_nat 104) with 104 in H.
  rewrite Hp in H. cbn [conn0 c_parser p_filter p_data p_links p_calls] in H. unfold filter0 in H.
  destruct (negb (h_type b =? pt_connect)) eqn:E1.
  { inversion H; subst. split; [discriminate|]. reflexivity. }
  destruct ((h_header_size b <? 104) || (max_header_size <? h_header_size b)) eqn:E2.
  { inversion H; subst. split; [discriminate|]. reflexivity. }
  destruct (max_data_size <? h_data_size b) eqn:E3.
  { inversion H; subst. split; [discriminate|]. reflexivity. }
  destruct (invalid_frame_id <=? c_initial_frame_id b) eqn:E4.
  { inversion H; subst. split; [discriminate|]. reflexivity. }
  pose proof (data_size_bound b Hbb) as Bd.
  unfold max_header_size, max_data_size in *.
  destruct (o_connected o b) as [[sk swk]|code].
  2:{ inversion H; subst. split; [discriminate|]. reflexivity. }
  cbn [timescale media_type cur_frame_id wait_key received_frames received_key_frames
    received_data_bytes skipped_duplicate skipped_empty skipped_empty_duration
    skipped_no_media_info skipped_no_key p_left] in H.
  rewrite u32_small in H by lia.
  change packet_header_size with 16%nat in H.
  assert (F1 : h_header_size (firstn 16 b) = h_header_size b)
    by (apply field_firstn; lia).
  assert (F2 : h_data_size (firstn 16 b) = h_data_size b)
    by (apply field_firstn; lia).
  assert (F3 : h_type (firstn 16 b) = h_type b)
    by (apply field_firstn; lia).
  assert (Hfl : length (firstn 16 b) = 16%nat) by (rewrite firstn_length; lia).
  destruct (h_header_size b + h_data_size b - 104 <=? 0) eqn:E5.
  - replace (h_header_size b + h_data_size b - 104 =? 0) with true by lia.
    match type of H with context [connect_data o ?q] => set (p1 := q) in *;
      destruct (connect_data o p1) as [p2 e] eqn:E6 end.
    assert (Hsz1 : h_header_size (p_header p1) - 104 <= Z.of_nat (length (node_bytes (p_data p1)))).
    { unfold p1. cbn [p_header p_data node_bytes map concat length]. rewrite F1. lia. }
    destruct (connect_data_sim o p1 p2 e Hsz1 E6)
      as ((Q1 & Q2 & Q3 & Q4) & Q5).
    cbn [p1 p_header p_data p_filter] in Q5. change (node_bytes []) with (@nil Z) in Q5.
    change (events p1) with (@nil event) in Q5. rewrite Q5.
    cbn [p1 p_header p_header_pos p_left] in Q1, Q2, Q3.
    assert (Hd2 : e = ROk -> p_data p2 = [] /\
       p_filter p2 = p_filter p1).
    { intros ->. unfold connect_data in E6. destruct (negb (o_has_connect_data o)).
      - inversion E6; subst. auto.
      - replace (Z.of_nat connect_packet_size <? h_header_size (p_header p1)) with false in E6
          by (cbn [p1 p_header]; rewrite F1; change (Z.of_nat connect_packet_size) with 104; lia).
        cbn [negb app p1 p_data] in E6. destruct (o_connect_data o _); inversion E6; subst. auto. }
    destruct e; inversion H; subst; clear H;
      try (split; [discriminate|reflexivity]); try contradiction.
    destruct (Hd2 eq_refl) as (Hd3 & Hf3).
    split.
    + unfold cinv. cbn [c_header_read c_parser]. unfold pinv, set_filter.
      cbn [p_header p_header_pos p_left p_data]. rewrite Q1, Q2, Q3.
      repeat split; auto; try lia. apply bytes_firstn, Hbb.
    + cbn [cview c_header_read c_parser]. unfold fview, set_filter, events.
      cbn [p_header p_header_pos p_left p_data p_filter p_calls].
      rewrite Hd3, Q2, Q3, E5, Hf3. cbn [p1 p_filter timescale media_type skip_left wait_key
       skip_wait_key received_frames received_key_frames
    received_data_bytes skipped_duplicate skipped_empty skipped_empty_duration
    skipped_no_media_info skipped_no_key firstn].
      replace (h_header_size b + h_data_size b - 104) with 0 by lia. reflexivity.
  - replace (h_header_size b + h_data_size b - 104 =? 0) with false by lia.
    apply pair_equal_spec in H. destruct H as (<- & <-). split.
    + unfold cinv. cbn [c_header_read c_parser]. unfold pinv, set_filter.
      cbn [p_header p_header_pos p_left p_data node_bytes map concat length].
      split; [exact Hfl|]. split; [apply bytes_firstn, Hbb|]. split; [lia|]. split; [lia|].
      split; [auto|]. intros _. split; [reflexivity|].
      unfold body_size. rewrite F1, F2, F3. lia.
    + unfold cview. cbn [c_header_read c_parser]. unfold fview, set_filter.
      cbn [p_header p_left p_data p_filter]. rewrite E5. reflexivity.
Qed.

Lemma recv_sim o c fresh avail c1 n r :
  has_links o -> cinv c -> bytes avail -> fresh <> None ->
  recv o c fresh avail = (c1, n, r) ->
  (n <= length avail)%nat /\
  match r with
  | None => cinv c1 /\ fbytes o (cview c None) (firstn n avail) = cview c1 None
  | Some e => e <> RFuel /\ e <> ROk /\ fbytes o (cview c None) (firstn n avail) = cview c1 (Some e)
  end.
Proof.
  intros Hal Hc Hb Hfr H. unfold recv in H.
  destruct (c_header_read c) eqn:Er; cbn [negb] in H.
  - destruct (if Nat.eqb (c_room c) 0 then fresh else Some (c_last c, c_room c))
      as [[last room]|] eqn:E1.
    2:{ destruct (Nat.eqb (c_room c) 0); [contradiction|discriminate]. }
    cbv zeta in H. destruct (Nat.eqb (Nat.min (length avail) room) 0) eqn:E2.
    + inversion H; subst. split; [lia|]. unfold cinv in *. rewrite Er in Hc.
      cbn [c_header_read c_parser]. split; [exact Hc|].
      unfold cview. rewrite Er. reflexivity.
    + set (k := Nat.min (length avail) room) in *.
      destruct (process_buffer o (c_parser c) (mkBuf last (firstn k avail))) as [p1 e] eqn:E3.
      unfold process_buffer in E3. unfold cinv in Hc. rewrite Er in Hc.
      destruct (process_loop_sim o Hal _ _ _ _ _ Hc
        (bytes_firstn k avail Hb : bytes (b_bytes (mkBuf last (firstn k avail))))
        (Nat.lt_succ_diag_r _) E3) as (R1 & R2 & R3).
      cbn [b_bytes] in R3. inversion H; subst. split; [lia|].
      destruct e; try (split; [congruence|]; split; [congruence|]; unfold cview at 1; rewrite Er; exact R3).
      split; [unfold cinv; cbn; auto|]. unfold cview at 1. rewrite Er. exact R3.
  - cbv zeta in H. unfold connect_packet_size in H.
    set (k := Nat.min (length avail) (104 - length (c_buffer c))) in *.
    destruct (Nat.eqb k 0) eqn:E2.
    + inversion H; subst. split; [lia|]. split; [exact Hc|reflexivity].
    + apply Nat.eqb_neq in E2.
      assert (Hlk : length (firstn k avail) = k) by (rewrite firstn_length; lia).
      destruct (read_header o c (firstn k avail)) as [c2 r2] eqn:E3.
      pose proof Hc as Hc'. unfold cinv in Hc'. rewrite Er in Hc'. destruct Hc' as (Hl & _).
      pose proof (read_header_sim _ _ _ _ _ Hc Er (bytes_firstn k avail Hb)
        ltac:(intros E; rewrite E in Hlk; cbn in Hlk; lia) ltac:(lia) E3) as S.
      destruct r2 as [e|]; [destruct e|]; inversion H; subst; clear H; (split; [lia|]);
        try exact S; try (split; [discriminate|]; split; [discriminate|]; apply S).
      destruct S as (S & _). contradiction.
Qed.

Lemma run_sim o : has_links o -> forall s c stream c1 rest r,
  cinv c -> bytes stream -> has_bufs s ->
  run o c s stream = (c1, rest, r) ->
  exists got, stream = got ++ rest /\
  fbytes o (cview c None) got = cview c1 r /\
  (r = None -> cinv c1) /\ r <> Some RFuel /\ r <> Some ROk.
Proof.
  intros Hal. induction s as [|[k fresh] s IH]; intros c stream c1 rest r Hc Hb Hs H.
  - cbn in H. inversion H; subst. exists []. repeat split; auto; discriminate.
  - cbn [run] in H. inversion Hs as [|x y Hs1 Hs2]; subst. cbn [snd] in Hs1.
    destruct (recv o c fresh (firstn k stream)) as [[c2 n] r2] eqn:E.
    destruct (recv_sim _ _ _ _ _ _ _ Hal Hc (bytes_firstn k stream Hb) Hs1 E) as (Hn & S).
    assert (Hnk : firstn n (firstn k stream) = firstn n stream).
    { rewrite firstn_firstn. f_equal. rewrite firstn_length in Hn. lia. }
    rewrite Hnk in S.
    destruct r2 as [e|].
    + inversion H; subst. exists (firstn n stream). split; [symmetry; apply firstn_skipn|].
      destruct S as (S1 & S2 & S3). split; [exact S3|].
      repeat split; [discriminate|congruence|congruence].
    + destruct S as (S1 & S2).
      destruct (IH _ _ _ _ _ S1 (bytes_skipn n stream Hb) Hs2 H) as (got & G1 & G2 & G3 & G4).
      exists (firstn n stream ++ got). split; [|split; [|split; assumption]].
      * rewrite <- app_assoc, <- G1. symmetry. apply firstn_skipn.
      * rewrite fbytes_app, S2. exact G2.
Qed.

(* what a view tells from outside *)
Definition flat_events (s : flat) : list event :=
  match s with FConn _ => [] | FRun _ _ _ _ evs => evs | FDone _ evs _ => evs end.
Definition flat_filter (s : flat) : fltr :=
  match s with FConn _ => filter0 | FRun _ _ _ f _ => f | FDone f _ _ => f end.
Definition flat_rc (s : flat) : option rc :=
  match s with FDone _ _ e => Some e | _ => None end.

Lemma cview_seen c r : (r = None -> cinv c) ->
  flat_events (cview c r) = events (c_parser c) /\
  flat_filter (cview c r) = p_filter (c_parser c) /\ flat_rc (cview c r) = r.
Proof.
  intros Hc. destruct r as [e|]; [auto|].
  specialize (Hc eq_refl). unfold cview, cinv in *. destruct (c_header_read c); [auto|].
  destruct Hc as (_ & _ & ->). auto.
Qed.

Lemma run_flat o s stream c rest r :
  has_links o -> bytes stream -> has_bufs s ->
  run o conn0 s stream = (c, rest, r) ->
  exists got, stream = got ++ rest /\
  let f := fbytes o (FConn []) got in
  flat_events f = events (c_parser c) /\ flat_filter f = p_filter (c_parser c) /\
  flat_rc f = r /\ r <> Some RFuel /\ r <> Some ROk.
Proof.
  intros Hal Hb Hs H.
  destruct (run_sim o Hal s conn0 stream c rest r conn0_inv Hb Hs H) as (got & G1 & G2 & G3 & G4 & G5).
  exists got. split; [exact G1|]. cbv zeta.
  change (cview conn0 None) with (FConn []) in G2. rewrite G2.
  destruct (cview_seen c r G3) as (V1 & V2 & V3). auto.
Qed.

Lemma flat_rc_done s e : flat_rc s = Some e -> exists f evs, s = FDone f evs e.
Proof. destruct s; cbn; try discriminate. intros H. inversion H; subst. eauto. Qed.

(* the whole stream decides *)
Lemma run_whole o s stream c rest r :
  has_links o -> bytes stream -> has_bufs s ->
  run o conn0 s stream = (c, rest, r) -> (r <> None \/ rest = []) ->
  let f := fbytes o (FConn []) stream in
  flat_events f = events (c_parser c) /\ flat_filter f = p_filter (c_parser c) /\
  flat_rc f = r.
Proof.
  intros Hal Hb Hs H Hd.
  destruct (run_flat _ _ _ _ _ _ Hal Hb Hs H) as (got & -> & G). cbv zeta in *.
  destruct G as (G1 & G2 & G3 & _).
  rewrite fbytes_app. destruct r as [e|].
  - destruct (flat_rc_done _ _ G3) as (f & evs & E). rewrite E in *. rewrite fbytes_done. auto.
  - destruct Hd as [Hd| ->]; [congruence|]. auto.
Qed.
