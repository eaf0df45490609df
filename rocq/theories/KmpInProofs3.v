(* Proofs for the KMP input, continued: links, key frames, acknowledgements. *)
From Coq Require Import ZArith List Bool Arith Lia Permutation.
From Coq Require Import ZifyBool ZifyNat.
From Verif Require Import Lists Bytes KmpInModel KmpInSpec KmpInProofs KmpInProofs2.
Import ListNotations.
Open Scope Z_scope.

(* ---- links ---- *)

Lemma node_skip_ids : forall c size ok passed data,
  node_skip c size = (ok, passed, data) -> map n_id passed ++ map n_id data = map n_id c.
Proof.
  induction c as [|n c IH]; intros size ok passed data H;
    destruct size as [|size]; cbn [node_skip] in H; try (inversion H; subst; reflexivity).
  destruct (Nat.ltb (S size) (length (n_data n))).
  - inversion H; subst. reflexivity.
  - destruct (node_skip c _) as [[ok' passed'] h] eqn:E. inversion H; subst.
    cbn [map app]. rewrite (IH _ _ _ _ E). reflexivity.
Qed.

Lemma node_copy_ids : forall c size ok buf passed data,
  node_copy c size = (ok, buf, passed, data) -> map n_id passed ++ map n_id data = map n_id c.
Proof.
  induction c as [|n c IH]; intros size ok buf passed data H;
    destruct size as [|size]; cbn [node_copy] in H; try (inversion H; subst; reflexivity).
  destruct (Nat.ltb (S size) (length (n_data n))).
  - inversion H; subst. reflexivity.
  - destruct (node_copy c _) as [[[ok' buf'] passed'] h] eqn:E. inversion H; subst.
    cbn [map app]. rewrite (IH _ _ _ _ _ E). reflexivity.
Qed.

Definition linv (o : owner) (p : parser) : Prop :=
  Permutation (seq 0 (l_next (p_links p)))
    (l_freed (p_links p) ++ l_given (p_links p) ++ map n_id (p_data p)) /\
  l_given (p_links p) = kept o (p_calls p).

Lemma connect_data_links o p p1 e : linv o p -> connect_data o p = (p1, e) -> linv o p1.
Proof.
  intros (H1 & H2) H. unfold connect_data in H. cbv zeta in H.
  destruct (negb (o_has_connect_data o)); [inversion H; subst; split; assumption|].
  match type of H with (let '(_, _) := ?r in _) = _ => destruct r as [[ok passed] data] eqn:E end.
  assert (Hi : map n_id passed ++ map n_id data = map n_id (p_data p)).
  { destruct (Z.of_nat connect_packet_size <? h_header_size (p_header p)).
    - exact (node_skip_ids _ _ _ _ _ E).
    - inversion E; subst. reflexivity. }
  destruct (negb ok).
  - inversion H; subst. split; cbn; [rewrite map_app, Hi; exact H1|exact H2].
  - assert (Hc : linv o (add_call (set_data p (passed ++ data) (p_links p)) (CConnectData data))).
    { split; cbn; [rewrite map_app, Hi; exact H1|rewrite app_nil_r; exact H2]. }
    destruct (o_connect_data o _); inversion H; subst; exact Hc.
Qed.

Lemma copy_header_links o p size p1 r :
  linv o p -> copy_packet_header p size = (p1, r) -> linv o p1 /\ p_calls p1 = p_calls p.
Proof.
  intros (H1 & H2) H. unfold copy_packet_header in H. cbv zeta in H.
  destruct (_ <? Z.of_nat size); [inversion H; subst; repeat split; assumption|].
  destruct (node_copy (p_data p) size) as [[[ok buf] passed1] data1] eqn:E1.
  pose proof (node_copy_ids _ _ _ _ _ _ E1) as Hi1.
  destruct (negb ok).
  { inversion H; subst. repeat split; cbn; [rewrite map_app, Hi1; exact H1|exact H2]. }
  match type of H with (let '(_, _) := ?r in _) = _ => destruct r as [[ok2 passed2] data] eqn:E2 end.
  assert (Hi2 : map n_id passed2 ++ map n_id data = map n_id data1).
  { destruct (0 <? _).
    - exact (node_skip_ids _ _ _ _ _ E2).
    - inversion E2; subst. reflexivity. }
  assert (Hi : map n_id (passed1 ++ passed2) ++ map n_id data = map n_id (p_data p)).
  { rewrite map_app, <- app_assoc, Hi2. exact Hi1. }
  destruct (negb ok2).
  { inversion H; subst. repeat split; cbn; [rewrite !map_app, Hi2, Hi1; exact H1|exact H2]. }
  destruct (passed1 ++ passed2) as [|n l] eqn:Ep.
  - inversion H; subst. cbn [map app] in Hi. repeat split; cbn; [rewrite Hi; exact H1|exact H2].
  - inversion H; subst. repeat split; [|exact H2].
    cbn [set_data free_list p_links p_data l_next l_freed l_given]. rewrite <- Hi in H1.
    rewrite H1, <- !app_assoc. apply Permutation_app_head.
    rewrite !app_assoc. apply Permutation_app_tail. apply Permutation_app_comm.
Qed.

(* a call: the links are kept by the handler, or not *)
Lemma call_links o q c ids :
  linv o q -> kept o (c :: p_calls q) = kept o (p_calls q) ++ ids ->
  (ids = [] -> linv o (add_call q c)) /\
  (ids = map n_id (p_data q) ->
   linv o (set_data (add_call q c) [] (give_list (p_links q) (p_data q)))).
Proof.
  intros (H1 & H2) Hk. split; intros ->; split;
    cbn [set_data add_call give_list p_links p_data p_calls l_next l_freed l_given map].
  - exact H1.
  - rewrite Hk, app_nil_r. exact H2.
  - rewrite app_nil_r. exact H1.
  - rewrite Hk, H2. reflexivity.
Qed.

Lemma linv_filter o p f : linv o p -> linv o (set_filter p f).
Proof. intros H. exact H. Qed.

Lemma media_info_links o p p1 e : linv o p -> media_info o p = (p1, e) -> linv o p1.
Proof.
  intros Hl H. unfold media_info in H.
  destruct (copy_packet_header p media_info_size) as [q r] eqn:E.
  destruct (copy_header_links _ _ _ _ _ Hl E) as (Hq & _).
  destruct r as [mi|e']; [|inversion H; subst; exact Hq].
  destruct (mi_timescale mi <=? 0); [inversion H; subst; exact Hq|]. cbv zeta in H.
  set (c := CMediaInfo mi (p_data q) (h_data_size (p_header q))) in *.
  destruct (call_links o q c
    (match o_media_info o (map event_of (c :: p_calls q)) with AOk => map n_id (p_data q) | _ => [] end)
    Hq eq_refl) as (K1 & K2).
  change (events (add_call q c)) with (map event_of (c :: p_calls q)) in H.
  destruct (o_media_info o (map event_of (c :: p_calls q))); inversion H; subst; clear H.
  - apply linv_filter. exact (K2 eq_refl).
  - apply linv_filter. exact (K1 eq_refl).
  - exact (K1 eq_refl).
  - exact (K1 eq_refl).
Qed.

Lemma frame_packet_links o p p1 e : linv o p -> frame_packet o p = (p1, e) -> linv o p1.
Proof.
  intros Hl H. unfold frame_packet in H.
  destruct (copy_packet_header p frame_size) as [q r] eqn:E.
  destruct (copy_header_links _ _ _ _ _ Hl E) as (Hq & _).
  destruct r as [b|e']; [|inversion H; subst; exact Hq]. cbv zeta in H.
  destruct (frame_filter (p_filter q) (parse_frame b) (h_data_size (p_header q))) as [f' [|]].
  2:{ inversion H; subst. apply linv_filter. exact Hq. }
  set (c := CFrame (cur_frame_id f') (mask_flags (parse_frame b)) (p_data q) (h_data_size (p_header q))) in *.
  destruct (call_links o (set_filter q f') c
    (match o_frame o (map event_of (c :: p_calls q)) with AOk => map n_id (p_data q) | _ => [] end)
    (linv_filter _ _ f' Hq) eq_refl) as (K1 & K2).
  change (events (add_call (set_filter q f') c)) with (map event_of (c :: p_calls q)) in H.
  destruct (o_frame o (map event_of (c :: p_calls q))); inversion H; subst; clear H.
  - apply linv_filter. exact (K2 eq_refl).
  - apply linv_filter. exact (K1 eq_refl).
  - exact (K1 eq_refl).
  - exact (K1 eq_refl).
Qed.

Lemma free_links o p : linv o p -> linv o (set_data p [] (free_list (p_links p) (p_data p))).
Proof.
  intros (H1 & H2). split; [|exact H2].
  cbn [set_data free_list p_links p_data l_next l_freed l_given map].
  rewrite app_nil_r, H1, <- app_assoc. apply Permutation_app_head. apply Permutation_app_comm.
Qed.

Lemma packet_links o p p1 e : linv o p -> packet o p = (p1, e) -> linv o p1.
Proof.
  intros Hl H. unfold packet in H. cbv zeta in H.
  match type of H with (let '(_, _) := ?r in _) = _ => destruct r as [q e1] eqn:E end.
  assert (Hq : linv o q).
  { destruct (h_type (p_header p) =? pt_connect); [exact (connect_data_links _ _ _ _ Hl E)|].
    destruct (h_type (p_header p) =? pt_media_info); [exact (media_info_links _ _ _ _ Hl E)|].
    destruct (h_type (p_header p) =? pt_frame); [exact (frame_packet_links _ _ _ _ Hl E)|].
    destruct (h_type (p_header p) =? pt_null); [inversion E; subst; exact Hl|].
    destruct (h_type (p_header p) =? pt_end); [|inversion E; subst; exact Hl].
    apply pair_equal_spec in E. destruct E as (<- & _).
    apply (proj1 (call_links o p CEndStream [] Hl eq_refl) eq_refl). }
  destruct e1; [|inversion H; subst; exact Hq ..].
  pose proof (free_links _ _ Hq) as Hf.
  destruct (p_data q) eqn:Ed; inversion H; subst; [exact Hq|exact Hf].
Qed.

Lemma link_data_links o p addr chunk p1 :
  linv o p -> link_data o p addr chunk = Some p1 -> linv o p1.
Proof.
  intros (H1 & H2) H. unfold link_data in H. cbv zeta in H.
  destruct (extend_last (p_data p) addr chunk) as [c|] eqn:E.
  - inversion H; subst. destruct (extend_last_bytes _ _ _ _ E) as (_ & Hi).
    split; cbn [set_data p_links p_data p_calls]; [rewrite Hi; exact H1|exact H2].
  - destruct (o_alloc o _); [|discriminate]. inversion H; subst.
    split; [|exact H2]. cbn [set_data p_links p_data l_next l_freed l_given].
    rewrite seq_S, H1, map_app, <- !app_assoc. reflexivity.
Qed.

Lemma turn_links o p b : linv o p ->
  match turn o p b with inl (p1, _) => linv o p1 | inr (p1, _) => linv o p1 end.
Proof.
  intros Hl. unfold turn. cbv zeta.
  assert (Hgo : forall q b1, linv o q ->
    match (match read_packet_data o q b1 with
           | inr p2 => inr (p2, RServerError)
           | inl (p2, b2, false) => inr (p2, ROk)
           | inl (p2, b2, true) =>
               match packet o p2 with
               | (p3, ROk) => inl (p3, b2)
               | (p3, e) => inr (p3, e)
               end
           end : (parser * buf) + (parser * rc))
    with inl (p1, _) => linv o p1 | inr (p1, _) => linv o p1 end).
  { intros q b1 Hq. unfold read_packet_data. cbv zeta.
    destruct (Nat.ltb 0 _).
    - destruct (link_data o q _ _) as [q1|] eqn:E; [|exact Hq].
      pose proof (link_data_links _ _ _ _ _ Hq E) as Hq1.
      set (q2 := set_left q1 _). assert (Hq2 : linv o q2) by exact Hq1.
      destruct (negb (0 <? p_left q2)); [|exact Hq2].
      destruct (packet o q2) as [p3 e] eqn:Ep.
      pose proof (packet_links _ _ _ _ Hq2 Ep) as Hp3. destruct e; exact Hp3.
    - destruct (negb (0 <? p_left q)); [|exact Hq].
      destruct (packet o q) as [p3 e] eqn:Ep.
      pose proof (packet_links _ _ _ _ Hq Ep) as Hp3. destruct e; exact Hp3. }
  destruct (p_left p <=? 0); [|apply Hgo; exact Hl].
  unfold read_packet_header. cbv zeta.
  destruct (Nat.ltb _ _); [exact Hl|]. destruct (negb (header_ok _)); [exact Hl|].
  apply Hgo. exact Hl.
Qed.

Lemma process_links o : forall fuel p b p1 e,
  linv o p -> process_loop o fuel p b = (p1, e) -> linv o p1.
Proof.
  induction fuel as [|fuel IH]; intros p b p1 e Hl H; cbn [process_loop] in H;
    [inversion H; subst; exact Hl|].
  destruct (b_bytes b); [inversion H; subst; exact Hl|].
  pose proof (turn_links o p b Hl) as T.
  destruct (turn o p b) as [[p2 b2]|[p2 e2]].
  - exact (IH _ _ _ _ T H).
  - inversion H; subst. exact T.
Qed.

Lemma read_header_links o c data c1 r :
  linv o (c_parser c) -> read_header o c data = (c1, r) -> linv o (c_parser c1).
Proof.
  intros Hl H. unfold read_header in H. cbv zeta in H.
  repeat match type of H with
  | (if ?x then _ else _) = _ => destruct x; [inversion H; subst; exact Hl|]
  end.
  destruct (o_connected o _) as [[sk swk]|code]; [|inversion H; subst; exact Hl].
  match type of H with context [connect_data o ?q] => set (p1 := q) in * end.
  assert (Hp1 : linv o p1) by exact Hl. clearbody p1.
  destruct (p_left p1 <=? 0).
  - destruct (connect_data o p1) as [p2 e] eqn:E.
    pose proof (connect_data_links _ _ _ _ Hp1 E) as Hp2.
    destruct e; inversion H; subst; exact Hp2.
  - inversion H; subst. exact Hp1.
Qed.

Lemma recv_links o c fresh avail c1 n r :
  linv o (c_parser c) -> recv o c fresh avail = (c1, n, r) -> linv o (c_parser c1).
Proof.
  intros Hl H. unfold recv in H. cbv zeta in H.
  destruct (negb (c_header_read c)).
  - destruct (Nat.eqb _ 0); [inversion H; subst; exact Hl|].
    destruct (read_header o c _) as [c2 r2] eqn:E.
    pose proof (read_header_links _ _ _ _ _ Hl E) as Hc2.
    destruct r2 as [e|]; [destruct e|]; inversion H; subst; exact Hc2.
  - destruct (if Nat.eqb (c_room c) 0 then fresh else _) as [[last room]|];
      [|inversion H; subst; exact Hl].
    destruct (Nat.eqb _ 0); [inversion H; subst; exact Hl|].
    destruct (process_buffer o (c_parser c) _) as [p1 e] eqn:E.
    inversion H; subst. exact (process_links _ _ _ _ _ _ Hl E).
Qed.

Lemma run_links o : forall s c stream c1 rest r,
  linv o (c_parser c) -> run o c s stream = (c1, rest, r) -> linv o (c_parser c1).
Proof.
  induction s as [|[k fresh] s IH]; intros c stream c1 rest r Hl H; cbn [run] in H;
    [inversion H; subst; exact Hl|].
  destruct (recv o c fresh (firstn k stream)) as [[c2 n] r2] eqn:E.
  pose proof (recv_links _ _ _ _ _ _ _ Hl E) as Hc2.
  destruct r2; [inversion H; subst; exact Hc2|exact (IH _ _ _ _ _ Hc2 H)].
Qed.

Lemma conn0_links o : linv o (c_parser conn0).
Proof. split; [constructor|reflexivity]. Qed.

Lemma cleanup_links o c : linv o (c_parser c) ->
  Permutation (seq 0 (l_next (cleanup c))) (l_freed (cleanup c) ++ l_given (cleanup c)) /\
  l_given (cleanup c) = kept o (p_calls (c_parser c)).
Proof.
  intros Hl. pose proof (free_links _ _ Hl) as (H1 & H2).
  cbn [set_data p_links p_data p_calls map] in H1, H2. rewrite app_nil_r in H1.
  unfold cleanup. destruct (p_data (c_parser c)) eqn:E; [|auto].
  destruct Hl as (H3 & H4). rewrite E in H3. cbn [map] in H3. rewrite app_nil_r in H3. auto.
Qed.

(* ---- key frames, for every stream ---- *)

(* newest first: since the last video media info there was a key frame *)
Fixpoint video_open (evs : list event) : bool :=
  match evs with
  | [] => true
  | EMediaInfo mi _ _ :: _ => negb (media_type_of mi =? media_video)
  | EFrame _ fr _ _ :: r => Z.odd (f_flags fr) || video_open r
  | _ :: r => video_open r
  end.

Fixpoint gated (evs : list event) : Prop :=
  match evs with
  | [] => True
  | EFrame _ fr _ _ :: r => Z.odd (f_flags fr) || video_open r = true /\ gated r
  | _ :: r => gated r
  end.

Definition ginv (p : parser) : Prop :=
  gated (events p) /\ skip_wait_key (p_filter p) = false /\
  (wait_key (p_filter p) = false -> video_open (events p) = true).

Lemma copy_header_same p size p1 r : copy_packet_header p size = (p1, r) ->
  p_calls p1 = p_calls p /\ p_filter p1 = p_filter p.
Proof.
  intros H. unfold copy_packet_header in H. cbv zeta in H.
  destruct (_ <? Z.of_nat size); [inversion H; subst; auto|].
  destruct (node_copy (p_data p) size) as [[[ok buf] passed1] data1].
  destruct (negb ok); [inversion H; subst; auto|].
  match type of H with (let '(_, _) := ?r in _) = _ => destruct r as [[ok2 passed2] data] end.
  destruct (negb ok2); [inversion H; subst; auto|].
  destruct (passed1 ++ passed2); inversion H; subst; auto.
Qed.

Definition gout (p1 : parser) (e : rc) : Prop :=
  gated (events p1) /\ (e = ROk -> ginv p1).

Lemma ginv_gout p e : ginv p -> gout p e.
Proof. intros H. split; [apply H|auto]. Qed.

Lemma connect_data_gated o p p1 e : ginv p -> connect_data o p = (p1, e) ->
  gout p1 e /\ wait_key (p_filter p1) = wait_key (p_filter p).
Proof.
  intros Hg H. unfold connect_data in H. cbv zeta in H.
  destruct (negb (o_has_connect_data o));
    [inversion H; subst; split; [apply ginv_gout, Hg|reflexivity]|].
  match type of H with (let '(_, _) := ?r in _) = _ => destruct r as [[ok passed] data] end.
  destruct (negb ok); [inversion H; subst; split; [apply ginv_gout, Hg|reflexivity]|].
  assert (Hq : ginv (add_call (set_data p (passed ++ data) (p_links p)) (CConnectData data))).
  { destruct Hg as (G1 & G2 & G3). split; [exact G1|]. split; [exact G2|exact G3]. }
  destruct (o_connect_data o _); inversion H; subst;
    (split; [apply ginv_gout, Hq|reflexivity]).
Qed.

Lemma media_info_gated o p p1 e : ginv p -> media_info o p = (p1, e) -> gout p1 e.
Proof.
  intros (G1 & G2 & G3) H. unfold media_info in H.
  destruct (copy_packet_header p media_info_size) as [q r] eqn:E.
  destruct (copy_header_same _ _ _ _ E) as (Hc & Hf).
  assert (Hev : events q = events p) by (unfold events; rewrite Hc; reflexivity).
  assert (Hq : ginv q) by (unfold ginv; rewrite Hev, Hf; auto).
  destruct r as [mi|e']; [|inversion H; subst; apply ginv_gout, Hq].
  destruct (mi_timescale mi <=? 0); [inversion H; subst; apply ginv_gout, Hq|]. cbv zeta in H.
  assert (Hgt : gated (EMediaInfo mi (node_bytes (p_data q)) (h_data_size (p_header q)) :: events q)).
  { rewrite Hev. exact G1. }
  destruct (o_media_info o _); inversion H; subst; clear H;
    (split; [exact Hgt|]); try discriminate;
    (intros _; split; [exact Hgt|]; split;
     [cbn [set_filter p_filter skip_wait_key add_call set_data]; rewrite Hf; exact G2
     |intros Hw; cbn [set_filter p_filter wait_key] in Hw;
      unfold events; cbn [set_filter set_data add_call p_calls map event_of video_open];
      unfold mi_media_type, field in Hw; unfold media_type_of; cbn [skipn] in Hw;
      apply negb_true_iff; exact Hw]).
Qed.

Lemma odd_mask fr : Z.odd (f_flags (mask_flags fr)) = is_key fr.
Proof.
  unfold mask_flags, is_key, flag_mask, flag_key. cbn [f_flags]. change 1 with (Z.ones 1).
  rewrite Z.land_ones by lia. change (2 ^ 1) with 2. rewrite Zmod_odd.
  destruct (Z.odd (f_flags fr)); reflexivity.
Qed.

Lemma frame_packet_gated o p p1 e : ginv p -> frame_packet o p = (p1, e) -> gout p1 e.
Proof.
  intros (G1 & G2 & G3) H. unfold frame_packet in H.
  destruct (copy_packet_header p frame_size) as [q r] eqn:E.
  destruct (copy_header_same _ _ _ _ E) as (Hc & Hf).
  assert (Hev : events q = events p) by (unfold events; rewrite Hc; reflexivity).
  assert (Hq : ginv q) by (unfold ginv; rewrite Hev, Hf; auto).
  destruct r as [b|e']; [|inversion H; subst; apply ginv_gout, Hq]. cbv zeta in H.
  set (fr := parse_frame b) in *.
  destruct (frame_filter (p_filter q) fr (h_data_size (p_header q))) as [f' d] eqn:Ef.
  rewrite Hf in Ef. unfold frame_filter in Ef. rewrite <- Hev in *.
  assert (Hsw : skip_wait_key f' = false /\
    if d then wait_key f' = false /\ (wait_key (p_filter p) && negb (is_key fr) = false)
    else wait_key f' = wait_key (p_filter p)).
  { destruct (p_filter p) as [ts mt cur sl wk swk rf rk rd sd se sed sm sk].
    cbn [skip_wait_key wait_key] in *. subst swk. rewrite andb_false_r in Ef.
    destruct (0 <? sl); [inversion Ef; subst; auto|].
    destruct (ts <=? 0); [inversion Ef; subst; auto|].
    destruct (_ =? 0); [inversion Ef; subst; auto|].
    destruct (_ && _); [inversion Ef; subst; auto|].
    destruct (wk && negb (is_key fr)) eqn:Ew; inversion Ef; subst; auto. }
  destruct Hsw as (Hs1 & Hs2).
  assert (Hnf : forall f, skip_wait_key (next_frame f) = skip_wait_key f /\
     wait_key (next_frame f) = wait_key f) by (intros []; auto).
  destruct d.
  2:{ inversion H; subst. split; [exact G1|]. intros _. split; [exact G1|].
      cbn [set_filter p_filter]. destruct (Hnf f') as (-> & ->).
      split; [exact Hs1|]. rewrite Hs2. exact G3. }
  destruct Hs2 as (Hs2 & Hs3).
  set (ev := EFrame (cur_frame_id f') (mask_flags fr) (node_bytes (p_data q)) (h_data_size (p_header q))).
  assert (Hop : video_open (ev :: events q) = true).
  { cbn [ev video_open]. rewrite odd_mask. destruct (is_key fr); [reflexivity|].
    rewrite andb_true_r in Hs3. cbn [orb]. auto. }
  assert (Hgt : gated (ev :: events q)).
  { split; [|exact G1]. exact Hop. }
  destruct (o_frame o _); inversion H; subst; clear H;
    (split; [exact Hgt|]); try discriminate;
    (intros _; split; [exact Hgt|]; split;
     [cbn [set_filter p_filter]; destruct (Hnf f') as (-> & _); exact Hs1
     |intros _; exact Hop]).
Qed.

Lemma packet_gated o p p1 e : ginv p -> packet o p = (p1, e) -> gout p1 e.
Proof.
  intros Hl H. unfold packet in H. cbv zeta in H.
  match type of H with (let '(_, _) := ?r in _) = _ => destruct r as [q e1] eqn:E end.
  assert (Hq : gout q e1).
  { destruct (h_type (p_header p) =? pt_connect); [exact (proj1 (connect_data_gated _ _ _ _ Hl E))|].
    destruct (h_type (p_header p) =? pt_media_info); [exact (media_info_gated _ _ _ _ Hl E)|].
    destruct (h_type (p_header p) =? pt_frame); [exact (frame_packet_gated _ _ _ _ Hl E)|].
    destruct (h_type (p_header p) =? pt_null); [inversion E; subst; apply ginv_gout, Hl|].
    destruct (h_type (p_header p) =? pt_end); [|inversion E; subst; apply ginv_gout, Hl].
    inversion E; subst. apply ginv_gout. exact Hl. }
  destruct e1; [|inversion H; subst; exact Hq ..].
  destruct (p_data q) eqn:Ed; inversion H; subst; exact Hq.
Qed.

Lemma link_data_gated o p addr chunk p1 : ginv p -> link_data o p addr chunk = Some p1 -> ginv p1.
Proof.
  intros Hg H. unfold link_data in H. cbv zeta in H.
  destruct (extend_last (p_data p) addr chunk) as [c|]; [inversion H; subst; exact Hg|].
  destruct (o_alloc o _); [|discriminate]. inversion H; subst. exact Hg.
Qed.

Lemma turn_gated o p b : ginv p ->
  match turn o p b with inl (p1, _) => ginv p1 | inr (p1, e) => gout p1 e end.
Proof.
  intros Hl. unfold turn. cbv zeta.
  assert (Hgo : forall q b1, ginv q ->
    match (match read_packet_data o q b1 with
           | inr p2 => inr (p2, RServerError)
           | inl (p2, b2, false) => inr (p2, ROk)
           | inl (p2, b2, true) =>
               match packet o p2 with
               | (p3, ROk) => inl (p3, b2)
               | (p3, e) => inr (p3, e)
               end
           end : (parser * buf) + (parser * rc))
    with inl (p1, _) => ginv p1 | inr (p1, e) => gout p1 e end).
  { intros q b1 Hq. unfold read_packet_data. cbv zeta.
    destruct (Nat.ltb 0 _).
    - destruct (link_data o q _ _) as [q1|] eqn:E; [|apply ginv_gout, Hq].
      pose proof (link_data_gated _ _ _ _ _ Hq E) as Hq1.
      set (q2 := set_left q1 _). assert (Hq2 : ginv q2) by exact Hq1.
      destruct (negb (0 <? p_left q2)); [|apply ginv_gout, Hq2].
      destruct (packet o q2) as [p3 e] eqn:Ep.
      pose proof (packet_gated _ _ _ _ Hq2 Ep) as Hp3.
      destruct e; try exact Hp3. exact (proj2 Hp3 eq_refl).
    - destruct (negb (0 <? p_left q)); [|apply ginv_gout, Hq].
      destruct (packet o q) as [p3 e] eqn:Ep.
      pose proof (packet_gated _ _ _ _ Hq Ep) as Hp3.
      destruct e; try exact Hp3. exact (proj2 Hp3 eq_refl). }
  destruct (p_left p <=? 0); [|apply Hgo; exact Hl].
  unfold read_packet_header. cbv zeta.
  destruct (Nat.ltb _ _); [apply ginv_gout, Hl|].
  destruct (negb (header_ok _)); [apply ginv_gout, Hl|].
  apply Hgo. exact Hl.
Qed.

Lemma process_gated o : forall fuel p b p1 e,
  ginv p -> process_loop o fuel p b = (p1, e) -> gout p1 e.
Proof.
  induction fuel as [|fuel IH]; intros p b p1 e Hl H; cbn [process_loop] in H;
    [inversion H; subst; apply ginv_gout, Hl|].
  destruct (b_bytes b); [inversion H; subst; apply ginv_gout, Hl|].
  pose proof (turn_gated o p b Hl) as T.
  destruct (turn o p b) as [[p2 b2]|[p2 e2]].
  - exact (IH _ _ _ _ T H).
  - inversion H; subst. exact T.
Qed.

Lemma read_header_gated o c data c1 r :
  waits_for_key o -> ginv (c_parser c) -> read_header o c data = (c1, r) ->
  gated (events (c_parser c1)) /\ (r = None \/ r = Some ROk -> ginv (c_parser c1)).
Proof.
  intros Hk Hl H. unfold read_header in H. cbv zeta in H.
  assert (Hin : forall q : Prop, gated (events (c_parser c)) /\ (q -> ginv (c_parser c)))
    by (intros; split; [apply Hl|auto]).
  repeat match type of H with
  | (if ?x then _ else _) = _ => destruct x; [inversion H; subst; apply Hin|]
  end.
  destruct (o_connected o _) as [[sk swk]|code] eqn:Ec; [|inversion H; subst; apply Hin].
  apply Hk in Ec. subst swk.
  match type of H with context [connect_data o ?q] => set (p1 := q) in * end.
  assert (Hp1 : ginv p1).
  { destruct Hl as (L1 & _ & L3). split; [exact L1|]. split; [reflexivity|exact L3]. }
  clearbody p1.
  assert (Hfin : forall p2, ginv p2 -> forall i, ginv (set_filter p2
     (mkFilter (timescale (p_filter p2)) (media_type (p_filter p2)) i
        (skip_left (p_filter p2)) (wait_key (p_filter p2)) (skip_wait_key (p_filter p2))
        (received_frames (p_filter p2)) (received_key_frames (p_filter p2))
        (received_data_bytes (p_filter p2))
        (skipped_duplicate (p_filter p2)) (skipped_empty (p_filter p2))
        (skipped_empty_duration (p_filter p2)) (skipped_no_media_info (p_filter p2))
        (skipped_no_key (p_filter p2))))).
  { intros p2 (L1 & L2 & L3) i. split; [exact L1|]. split; [exact L2|exact L3]. }
  destruct (p_left p1 <=? 0).
  - destruct (connect_data o p1) as [p2 e] eqn:E.
    destruct (connect_data_gated _ _ _ _ Hp1 E) as (Hp2 & _).
    destruct e; inversion H; subst; cbn [c_parser];
      try (split; [exact (proj1 Hp2)|intros [Q|Q]; discriminate]).
    split; [exact (proj1 Hp2)|]. intros _. apply Hfin. exact (proj2 Hp2 eq_refl).
  - inversion H; subst. cbn [c_parser]. split; [exact (proj1 Hp1)|]. intros _. apply Hfin. exact Hp1.
Qed.

Lemma recv_gated o c fresh avail c1 n r :
  waits_for_key o -> ginv (c_parser c) -> recv o c fresh avail = (c1, n, r) ->
  gated (events (c_parser c1)) /\ (r = None -> ginv (c_parser c1)).
Proof.
  intros Hk Hl H. unfold recv in H. cbv zeta in H.
  assert (Hin : forall q : Prop, gated (events (c_parser c)) /\ (q -> ginv (c_parser c)))
    by (intros; split; [apply Hl|auto]).
  destruct (negb (c_header_read c)).
  - destruct (Nat.eqb _ 0); [inversion H; subst; apply Hin|].
    destruct (read_header o c _) as [c2 r2] eqn:E.
    destruct (read_header_gated _ _ _ _ _ Hk Hl E) as (R1 & R2).
    destruct r2 as [e|]; [destruct e|]; inversion H; subst; (split; [exact R1|]); auto; discriminate.
  - destruct (if Nat.eqb (c_room c) 0 then fresh else _) as [[last room]|];
      [|inversion H; subst; apply Hin].
    destruct (Nat.eqb _ 0); [inversion H; subst; apply Hin|].
    destruct (process_buffer o (c_parser c) _) as [p1 e] eqn:E.
    pose proof (process_gated _ _ _ _ _ _ Hl E) as (R1 & R2).
    inversion H; subst. cbn [c_parser]. split; [exact R1|]. destruct e; auto; discriminate.
Qed.

Lemma run_gated o : waits_for_key o -> forall s c stream c1 rest r,
  ginv (c_parser c) -> run o c s stream = (c1, rest, r) -> gated (events (c_parser c1)).
Proof.
  intros Hk. induction s as [|[k fresh] s IH]; intros c stream c1 rest r Hl H; cbn [run] in H;
    [inversion H; subst; apply Hl|].
  destruct (recv o c fresh (firstn k stream)) as [[c2 n] r2] eqn:E.
  destruct (recv_gated _ _ _ _ _ _ _ Hk Hl E) as (R1 & R2).
  destruct r2; [inversion H; subst; exact R1|exact (IH _ _ _ _ _ (R2 eq_refl) H)].
Qed.

Lemma video_open_mid : forall mid mi d s older,
  (forall e, In e mid -> ~ is_media_info e) -> media_type_of mi = media_video ->
  video_open (mid ++ EMediaInfo mi d s :: older) = true ->
  exists id fr dat sz, In (EFrame id fr dat sz) mid /\ Z.odd (f_flags fr) = true.
Proof.
  induction mid as [|e mid IH]; intros mi d s older Hm Hv H.
  - cbn -[media_type_of] in H. rewrite Hv in H. discriminate.
  - assert (Hm' : forall x, In x mid -> ~ is_media_info x) by (intros x Hx; apply Hm; right; exact Hx).
    destruct e as [dat|mi' d' s'|id fr dat sz|]; cbn [app video_open] in H.
    + destruct (IH _ _ _ _ Hm' Hv H) as (i & f & a & z & I1 & I2).
      exists i, f, a, z. split; [right; exact I1|exact I2].
    + exfalso. apply (Hm (EMediaInfo mi' d' s')); [left; reflexivity|exact Logic.I].
    + destruct (Z.odd (f_flags fr)) eqn:E.
      * exists id, fr, dat, sz. split; [left; reflexivity|exact E].
      * destruct (IH _ _ _ _ Hm' Hv H) as (i & f & a & z & I1 & I2).
        exists i, f, a, z. split; [right; exact I1|exact I2].
    + destruct (IH _ _ _ _ Hm' Hv H) as (i & f & a & z & I1 & I2).
      exists i, f, a, z. split; [right; exact I1|exact I2].
Qed.

Lemma gated_app a b : gated (a ++ b) -> gated b.
Proof.
  induction a as [|e a IH]; [auto|]. destruct e; cbn [app gated]; try exact IH.
  intros (_ & H). apply IH. exact H.
Qed.

(* ---- acknowledgements ---- *)

Lemma ack_packet_wire id : ack_packet id = wire_ack id.
Proof. reflexivity. Qed.

Lemma ack_packet_length id : length (ack_packet id) = 40%nat.
Proof. unfold ack_packet. rewrite !app_length, !le_length. reflexivity. Qed.

Lemma last_default : forall (l : list Z) x d d', last (x :: l) d = last (x :: l) d'.
Proof.
  induction l as [|z l IH]; intros x d d'; [reflexivity|].
  change (last (z :: l) d = last (z :: l) d'). apply IH.
Qed.

Lemma increasing_snoc : forall l lo x,
  increasing lo (l ++ [x]) <-> increasing lo l /\ last l lo < x.
Proof.
  induction l as [|y l IH]; intros lo x.
  - cbn [app last]. split.
    + intros H. inversion H; subst. split; [constructor|assumption].
    + intros (_ & H). constructor; [exact H|constructor].
  - cbn [app]. assert (Hl : last (y :: l) lo = last l y).
    { clear. destruct l as [|z l]; [reflexivity|].
      change (last (z :: l) lo = last (z :: l) y). apply last_default. }
    rewrite Hl. split.
    + intros H. inversion H as [|? ? ? H1 H2]; subst. apply IH in H2. destruct H2.
      split; [constructor; assumption|assumption].
    + intros (H & H3). inversion H as [|? ? ? H1 H2]; subst. constructor; [assumption|].
      apply IH. auto.
Qed.

Lemma last_snoc (l : list Z) x d : last (l ++ [x]) d = x.
Proof. apply last_last. Qed.

(* ids are the packets completely sent *)
Definition ainv (initial : Z) (a : acker) (ids : list Z) : Prop :=
  increasing initial ids /\ last ids initial <= a_acked a /\
  if a_writing a then
    (a_pos a < 40)%nat /\ last ids initial < a_packet_id a <= a_acked a /\
    a_sent a = concat (map wire_ack ids) ++ firstn (a_pos a) (wire_ack (a_packet_id a))
  else a_acked a = last ids initial /\ a_sent a = concat (map wire_ack ids).

Lemma ack_inv initial a ids id :
  ainv initial a ids -> ainv initial (ack_frames a id) ids /\
  a_acked (ack_frames a id) = Z.max (a_acked a) id.
Proof.
  intros (H1 & H2 & H3). unfold ack_frames.
  destruct (id <=? a_acked a) eqn:E; [split; [split; auto|lia]|].
  destruct (a_writing a) eqn:Ew; unfold ainv;
    cbn [a_acked a_writing a_pos a_packet_id a_sent].
  - destruct H3 as (H3 & H4 & H5). split; [|lia].
    split; [exact H1|]. split; [lia|]. split; [exact H3|]. split; [lia|exact H5].
  - destruct H3 as (H3 & H4). split; [|lia].
    split; [exact H1|]. split; [lia|]. split; [lia|]. split; [lia|].
    cbn [firstn]. rewrite app_nil_r. exact H4.
Qed.

Lemma wire_ack_length id : length (wire_ack id) = 40%nat.
Proof. apply (ack_packet_length id). Qed.

Lemma write_loop_inv initial : forall sends a ids,
  ainv initial a ids -> a_writing a = true ->
  exists ids', ainv initial (write_loop a sends) ids' /\
    a_acked (write_loop a sends) = a_acked a.
Proof.
  induction sends as [|k sends IH]; intros a ids Ha Hw; [exists ids; auto|].
  destruct Ha as (H1 & H2 & H3). pose proof H3 as H3'. rewrite Hw in H3'. destruct H3' as (Hp & Hid & Hs).
  cbn [write_loop]. rewrite !ack_packet_wire. unfold ack_packet_size. cbv zeta.
  set (size := (40 - a_pos a)%nat). set (n := Nat.min k size).
  assert (Hsent : forall m, firstn (a_pos a) (wire_ack (a_packet_id a))
      ++ firstn m (skipn (a_pos a) (wire_ack (a_packet_id a)))
     = firstn (a_pos a + m) (wire_ack (a_packet_id a))).
  { intros m. rewrite <- (firstn_skipn (a_pos a) (wire_ack (a_packet_id a))) at 3.
    rewrite firstn_app, firstn_firstn, firstn_length, wire_ack_length.
    replace (Nat.min (a_pos a + m) (a_pos a)) with (a_pos a) by lia.
    f_equal. f_equal. lia. }
  destruct (Nat.ltb 0 n) eqn:E0.
  2:{ exists ids. split; [split; auto|reflexivity]. }
  destruct (Nat.ltb n size) eqn:E1.
  - exists ids. split; [|reflexivity]. unfold ainv. cbn [a_acked a_writing a_pos a_packet_id a_sent].
    apply Nat.ltb_lt in E1. unfold size in E1.
    split; [exact H1|]. split; [lia|]. split; [lia|]. split; [lia|].
    rewrite Hs, <- app_assoc, Hsent. reflexivity.
  - apply Nat.ltb_ge in E1.
    assert (Hn : (a_pos a + n = 40)%nat) by (unfold n, size in *; lia).
    assert (Hfull : a_sent a ++ firstn n (skipn (a_pos a) (wire_ack (a_packet_id a)))
      = concat (map wire_ack (ids ++ [a_packet_id a]))).
    { rewrite Hs, <- app_assoc, Hsent, Hn, firstn_all2 by (rewrite wire_ack_length; lia).
      rewrite map_app, concat_app. cbn [map concat]. rewrite app_nil_r. reflexivity. }
    rewrite Hfull.
    assert (Hinc : increasing initial (ids ++ [a_packet_id a])).
    { apply increasing_snoc. split; [exact H1|lia]. }
    destruct (negb (a_packet_id a =? a_acked a)) eqn:E2.
    + set (a' := mkAcker (a_acked a) 0 (a_acked a) true (concat (map wire_ack (ids ++ [a_packet_id a])))).
      destruct (IH a' (ids ++ [a_packet_id a])) as (ids' & I1 & I2); [|reflexivity|].
      * unfold ainv, a'. cbn [a_acked a_writing a_pos a_packet_id a_sent]. rewrite last_snoc.
        split; [exact Hinc|]. split; [lia|]. split; [lia|]. split; [lia|].
        cbn [firstn]. rewrite app_nil_r. reflexivity.
      * exists ids'. auto.
    + exists (ids ++ [a_packet_id a]). split; [|reflexivity].
      unfold ainv. cbn [a_acked a_writing a_pos a_packet_id a_sent]. rewrite last_snoc.
      split; [exact Hinc|]. split; [lia|]. split; [lia|reflexivity].
Qed.

Lemma ack_step_inv initial a ids op :
  ainv initial a ids -> exists ids', ainv initial (ack_step a op) ids' /\
  a_acked (ack_step a op) = match op with Ack id => Z.max (a_acked a) id | Writable _ => a_acked a end.
Proof.
  intros H. destruct op as [id|sends]; cbn [ack_step].
  - exists ids. apply ack_inv. exact H.
  - unfold write_handler. destruct (a_writing a) eqn:E; cbn [negb].
    + exact (write_loop_inv initial sends a ids H E).
    + exists ids. auto.
Qed.

Lemma ack_run_inv initial : forall ops a ids,
  ainv initial a ids -> exists ids', ainv initial (ack_run a ops) ids' /\
  a_acked (ack_run a ops) = highest (a_acked a) ops.
Proof.
  induction ops as [|op ops IH]; intros a ids H; [exists ids; auto|].
  destruct (ack_step_inv initial a ids op H) as (ids1 & H1 & H2).
  destruct (IH _ _ H1) as (ids2 & H3 & H4).
  exists ids2. unfold ack_run in *. cbn [fold_left]. split; [exact H3|].
  rewrite H4, H2. destruct op; reflexivity.
Qed.

Lemma acker0_inv initial : ainv initial (acker0 initial) [].
Proof. unfold ainv, acker0. cbn. repeat split; try lia. constructor. Qed.

Lemma drain_loop a sends initial ids :
  ainv initial a ids -> a_writing a = true ->
  (2 <= length sends)%nat -> Forall (fun k => 40 <= k)%nat sends ->
  a_writing (write_loop a sends) = false.
Proof.
  intros Ha Hw Hlen Hall. destruct Ha as (_ & _ & H). rewrite Hw in H. destruct H as (Hp & _ & _).
  destruct sends as [|k1 [|k2 sends]]; cbn in Hlen; try lia.
  inversion Hall as [|? ? K1 Hall2]; subst. inversion Hall2 as [|? ? K2 _]; subst.
  cbn [write_loop]. unfold ack_packet_size. cbv zeta.
  replace (Nat.min k1 (40 - a_pos a)) with (40 - a_pos a)%nat by lia.
  replace (Nat.ltb 0 (40 - a_pos a)) with true by (symmetry; apply Nat.ltb_lt; lia).
  rewrite Nat.ltb_irrefl.
  destruct (negb (a_packet_id a =? a_acked a)); [|reflexivity].
  cbn [a_pos a_packet_id a_acked]. rewrite Nat.sub_0_r.
  replace (Nat.min k2 40) with 40%nat by lia. rewrite Z.eqb_refl. reflexivity.
Qed.

(* ---- sizes, for every stream ---- *)

Definition fgood (s : flat) : Prop :=
  match s with
  | FConn l => bytes l
  | FRun hdr lft body _ evs =>
      bytes hdr /\ Forall right_size evs /\
      (0 < lft -> body_size hdr (Z.of_nat (length body) + lft))
  | FDone _ evs _ => Forall right_size evs
  end.

Lemma body_data_size hdr (body : list Z) : body_size hdr (Z.of_nat (length body)) ->
  h_type hdr <> pt_connect ->
  h_data_size hdr = Z.of_nat (length (skipn (Z.to_nat (h_header_size hdr - 16)) body)) /\
  h_data_size hdr <= 16 * 1024 * 1024.
Proof.
  intros (H1 & H2 & [H3|(H3 & _)]) Ht; [|congruence]. rewrite skipn_length. lia.
Qed.

Lemma fpacket_good o hdr body f evs :
  bytes hdr -> body_size hdr (Z.of_nat (length body)) -> Forall right_size evs ->
  fgood (fpacket o hdr body f evs).
Proof.
  intros Hh Hb He. unfold fpacket. cbv zeta.
  assert (Hrun : forall g ev, right_size ev -> fgood (FRun [] 0 [] g (ev :: evs))).
  { intros g ev H. split; [constructor|]. split; [constructor; assumption|lia]. }
  destruct (h_type hdr =? pt_connect) eqn:E1.
  { unfold fconnect_data. destruct (negb _); [split; [constructor|]; split; [exact He|lia]|].
    cbv zeta.
    set (ev := EConnectData _).
    assert (Hev : right_size ev).
    { cbn [ev right_size]. rewrite skipn_length. destruct Hb as (B1 & B2 & B3). lia. }
    destruct (o_connect_data o _); try (apply Hrun; exact Hev); constructor; assumption. }
  apply Z.eqb_neq in E1. destruct (body_data_size _ _ Hb E1) as (D1 & D2).
  destruct (h_type hdr =? pt_media_info).
  { unfold fmedia. destruct (u32 (h_header_size hdr - 16) <? 32) eqn:E2; [exact He|]. cbv zeta.
    destruct (mi_timescale _ <=? 0); [exact He|].
    set (ev := EMediaInfo _ _ _).
    assert (Hev : right_size ev).
    { cbn [ev right_size]. split; [|split; [exact D1|lia]].
      rewrite firstn_length. destruct Hb as (B1 & B2 & B3).
      rewrite u32_small in E2 by lia. lia. }
    destruct (o_media_info o _); try (apply Hrun; exact Hev); constructor; assumption. }
  destruct (h_type hdr =? pt_frame).
  { unfold fframe. destruct (u32 (h_header_size hdr - 16) <? 24); [exact He|]. cbv zeta.
    destruct (frame_filter f _ _) as [f' [|]]; [|split; [constructor|]; split; [exact He|lia]].
    set (ev := EFrame _ _ _ _).
    assert (Hev : right_size ev) by (cbn [ev right_size]; split; [exact D1|lia]).
    destruct (o_frame o _); try (apply Hrun; exact Hev); constructor; assumption. }
  destruct (h_type hdr =? pt_null); [split; [constructor|]; split; [exact He|lia]|].
  destruct (h_type hdr =? pt_end); [|exact He]. constructor; [exact Logic.I|exact He].
Qed.

Lemma fconnect_good o b : bytes b -> fgood (fconnect o b).
Proof.
  intros Hb. unfold fconnect.
  destruct (negb (h_type b =? pt_connect)) eqn:E0; [constructor|].
  destruct ((h_header_size b <? 104) || (max_header_size <? h_header_size b)) eqn:E1; [constructor|].
  destruct (max_data_size <? h_data_size b) eqn:E2; [constructor|].
  destruct (invalid_frame_id <=? c_initial_frame_id b); [constructor|].
  destruct (o_connected o b) as [[sk swk]|code]; [|constructor]. cbv zeta.
  pose proof (data_size_bound b Hb) as B. unfold max_header_size, max_data_size in *.
  assert (H16 : h_type (firstn 16 b) = h_type b /\ h_header_size (firstn 16 b) = h_header_size b /\
    h_data_size (firstn 16 b) = h_data_size b).
  { unfold h_type, h_header_size, h_data_size. rewrite !field_firstn by lia. auto. }
  destruct H16 as (T1 & T2 & T3).
  destruct (h_header_size b + h_data_size b - 104 =? 0) eqn:E3.
  - unfold fconnect_data. destruct (negb (o_has_connect_data o)).
    + split; [constructor|]. split; [constructor|lia].
    + cbv zeta. rewrite skipn_nil.
      assert (R : Forall right_size [EConnectData []]).
      { constructor; [cbn; lia|constructor]. }
      destruct (o_connect_data o _); try exact R. split; [constructor|]. split; [exact R|lia].
  - split; [apply bytes_firstn, Hb|]. split; [constructor|]. intros _.
    cbn [length]. unfold body_size. rewrite T1, T2, T3. split; [lia|]. split; [lia|].
    right. apply negb_false_iff, Z.eqb_eq in E0. lia.
Qed.

Lemma fbyte_good o s b : is_byte b -> fgood s -> fgood (fbyte o s b).
Proof.
  intros Hb H. destruct s as [l|hdr lft body f evs|f evs e]; cbn [fbyte]; [| |exact H].
  - assert (Hl : bytes (l ++ [b])) by (apply bytes_app; split; [exact H|constructor; [exact Hb|constructor]]).
    cbv zeta. destruct (Nat.eqb _ 104); [apply fconnect_good, Hl|exact Hl].
  - destruct H as (H1 & H2 & H3).
    assert (Hh : bytes (hdr ++ [b])) by (apply bytes_app; split; [exact H1|constructor; [exact Hb|constructor]]).
    destruct (lft <=? 0) eqn:E.
    + cbv zeta. destruct (Nat.eqb _ 16); [|split; [exact Hh|]; split; [exact H2|lia]].
      unfold fheader. destruct (negb (header_ok (hdr ++ [b]))) eqn:E2; [exact H2|]. cbv zeta.
      apply negb_false_iff in E2. destruct (header_ok_inv _ Hh E2) as (K1 & K2).
      assert (HB : body_size (hdr ++ [b]) (h_header_size (hdr ++ [b]) + h_data_size (hdr ++ [b]) - 16)).
      { split; [exact K1|]. split; [exact K2|left; reflexivity]. }
      destruct (_ =? 0) eqn:E3.
      * apply fpacket_good; [exact Hh| |exact H2]. apply Z.eqb_eq in E3. rewrite E3 in HB. exact HB.
      * split; [exact Hh|]. split; [exact H2|]. intros _. exact HB.
    + cbv zeta. assert (H0 : 0 < lft) by lia. specialize (H3 H0).
      assert (HL : Z.of_nat (length (body ++ [b])) = Z.of_nat (length body) + 1)
        by (rewrite app_length; cbn [length]; lia).
      destruct (lft - 1 =? 0) eqn:E2.
      * apply fpacket_good; [exact H1| |exact H2].
        rewrite HL. replace 1 with lft at 1 by lia. exact H3.
      * split; [exact H1|]. split; [exact H2|]. intros _. rewrite HL.
        replace (Z.of_nat (length body) + 1 + (lft - 1)) with (Z.of_nat (length body) + lft) by lia.
        exact H3.
Qed.

Lemma fbytes_good o : forall l s, bytes l -> fgood s -> fgood (fbytes o s l).
Proof.
  induction l as [|b l IH]; intros s Hl Hs; [exact Hs|].
  inversion Hl; subst. apply IH; [assumption|]. apply fbyte_good; assumption.
Qed.

(* ---- the specification of fates is a function ---- *)

Lemma fate_unique skip keep ps fr data x y :
  frame_fate skip keep ps fr data x -> frame_fate skip keep ps fr data y -> x = y.
Proof.
  intros H1 H2. destruct H1; inversion H2; subst; try reflexivity; try lia; try congruence;
    repeat match goal with
    | A : media_in_force ps = Some ?a, B : media_in_force ps = Some ?b |- _ =>
        assert (a = b) by congruence; subst b; clear B
    end; try congruence.
  - unfold media_video, media_subtitle in *. congruence.
  - match goal with A : _ = media_subtitle, B : _ = media_subtitle -> _ |- _ => specialize (B A) end. lia.
  - unfold media_video, media_subtitle in *. congruence.
  - exfalso. match goal with A : _ = media_video, B : _ = media_video -> _ |- _ => specialize (B A) end. tauto.
  - match goal with A : _ = media_subtitle, B : _ = media_subtitle -> _ |- _ => specialize (B A) end. lia.
  - exfalso. match goal with A : _ = media_video, B : _ = media_video -> _ |- _ => specialize (B A) end. tauto.
Qed.

Lemma told_snoc initial skip keep ps p evs fs :
  told initial skip keep (ps ++ [p]) evs fs ->
  match p with
  | PMediaInfo mi ext data => exists evs1, told initial skip keep ps evs1 fs /\
      evs = evs1 ++ [EMediaInfo mi data (Z.of_nat (length data))]
  | PNull ext data => told initial skip keep ps evs fs
  | PFrame fr ext data => exists evs1 fs1 x, told initial skip keep ps evs1 fs1 /\
      frame_fate skip keep ps fr data x /\ fs = fs1 ++ [x] /\
      (x = Delivered /\ evs = evs1 ++ [EFrame ((initial + frames_sent ps) mod 2 ^ 64) (shown fr) data
                 (Z.of_nat (length data))] \/ x <> Delivered /\ evs = evs1)
  | PEnd _ _ => False
  end.
Proof.
  intros H. inversion H as [E|ps0 evs0 fs0 mi ext data T E|ps0 evs0 fs0 ext data T E
    |ps0 evs0 fs0 fr ext data T F E|ps0 evs0 fs0 fr ext data x T F N E].
  - destruct ps; discriminate.
  - apply app_inj_tail in E. destruct E as (-> & <-). eauto.
  - apply app_inj_tail in E. destruct E as (-> & <-). subst. exact T.
  - apply app_inj_tail in E. destruct E as (-> & <-). subst. exists evs0, fs0, Delivered. auto 10.
  - apply app_inj_tail in E. destruct E as (-> & <-). subst. exists evs, fs0, x. auto 10.
Qed.

Lemma told_unique initial skip keep : forall ps evs fs evs' fs',
  told initial skip keep ps evs fs -> told initial skip keep ps evs' fs' ->
  evs = evs' /\ fs = fs'.
Proof.
  induction ps as [|p ps IH] using rev_ind; intros evs fs evs' fs' H1 H2.
  - inversion H1; inversion H2; subst; auto;
      repeat match goal with A : _ ++ [_] = [] |- _ => apply app_eq_nil in A; destruct A; discriminate end.
  - apply told_snoc in H1. apply told_snoc in H2. destruct p as [mi ext data|fr ext data|ext data|ext data].
    + destruct H1 as (e1 & T1 & ->), H2 as (e2 & T2 & ->).
      destruct (IH _ _ _ _ T1 T2) as (-> & ->). auto.
    + destruct H1 as (e1 & f1 & x1 & T1 & F1 & -> & G1), H2 as (e2 & f2 & x2 & T2 & F2 & -> & G2).
      destruct (IH _ _ _ _ T1 T2) as (-> & ->).
      pose proof (fate_unique _ _ _ _ _ _ _ F1 F2) as ->.
      destruct G1 as [(M1 & ->)|(N1 & ->)], G2 as [(M2 & ->)|(N2 & ->)]; auto; congruence.
    + exact (IH _ _ _ _ H1 H2).
    + contradiction.
Qed.

Lemma told_delivered initial skip keep ps fr ext data : forall more evs fs,
  told initial skip keep (ps ++ PFrame fr ext data :: more) evs fs ->
  frame_fate skip keep ps fr data Delivered ->
  In (EFrame ((initial + frames_sent ps) mod 2 ^ 64) (shown fr) data (Z.of_nat (length data))) evs.
Proof.
  induction more as [|p more IH] using rev_ind; intros evs fs H Hf.
  - apply told_snoc in H. destruct H as (e1 & f1 & x & T & F & -> & G).
    pose proof (fate_unique _ _ _ _ _ _ _ F Hf) as ->.
    destruct G as [(_ & ->)|(N & _)]; [|congruence]. apply in_or_app. right. left. reflexivity.
  - rewrite app_comm_cons, app_assoc in H. apply told_snoc in H.
    destruct p as [mi ext' data'|fr' ext' data'|ext' data'|ext' data'].
    + destruct H as (e1 & T & ->). apply in_or_app. left. exact (IH _ _ T Hf).
    + destruct H as (e1 & f1 & x & T & F & -> & G).
      pose proof (IH _ _ T Hf) as I1.
      destruct G as [(_ & ->)|(_ & ->)]; [apply in_or_app; left|]; exact I1.
    + exact (IH _ _ H Hf).
    + contradiction.
Qed.

Lemma told_no_key initial skip keep : forall ps evs fs,
  told initial skip keep ps evs fs -> In NoKey fs ->
  exists a mi ext data b, ps = a ++ PMediaInfo mi ext data :: b /\ media_type_of mi = media_video.
Proof.
  assert (Hm : forall ps mi, media_in_force ps = Some mi ->
    exists a ext data b, ps = a ++ PMediaInfo mi ext data :: b).
  { induction ps as [|p ps IH]; intros mi H; [discriminate|].
    destruct p as [mi' ext' data'|fr' ext' data'|ext' data'|ext' data']; cbn [media_in_force] in H.
    - destruct (media_in_force ps) as [m|] eqn:E.
      + inversion H; subst. destruct (IH _ eq_refl) as (a & e & d & b & ->).
        exists (PMediaInfo mi' ext' data' :: a), e, d, b. reflexivity.
      + inversion H; subst. exists [], ext', data', ps. reflexivity.
    - destruct (IH _ H) as (a & e & d & b & ->).
      exists (PFrame fr' ext' data' :: a), e, d, b. reflexivity.
    - destruct (IH _ H) as (a & e & d & b & ->).
      exists (PNull ext' data' :: a), e, d, b. reflexivity.
    - destruct (IH _ H) as (a & e & d & b & ->).
      exists (PEnd ext' data' :: a), e, d, b. reflexivity. }
  induction 1 as [|ps evs fs mi ext data T IH|ps evs fs ext data T IH
    |ps evs fs fr ext data T IH F|ps evs fs fr ext data x T IH F N]; intros Hin.
  - contradiction.
  - destruct (IH Hin) as (a & m & e & d & b & -> & Hv).
    exists a, m, e, d, (b ++ [PMediaInfo mi ext data]). rewrite <- app_assoc. auto.
  - destruct (IH Hin) as (a & m & e & d & b & -> & Hv).
    exists a, m, e, d, (b ++ [PNull ext data]). rewrite <- app_assoc. auto.
  - apply in_app_or in Hin. destruct Hin as [Hin|[Hin|[]]]; [|discriminate].
    destruct (IH Hin) as (a & m & e & d & b & -> & Hv).
    exists a, m, e, d, (b ++ [PFrame fr ext data]). rewrite <- app_assoc. auto.
  - apply in_app_or in Hin. destruct Hin as [Hin|[Hin|[]]].
    + destruct (IH Hin) as (a & m & e & d & b & -> & Hv).
      exists a, m, e, d, (b ++ [PFrame fr ext data]). rewrite <- app_assoc. auto.
    + subst x. inversion F as [| | | |mi' A1 A2 A3 A4 A5 A6|]; subst.
      destruct (Hm _ _ A2) as (a & e & d & b & ->).
      exists a, mi', e, d, (b ++ [PFrame fr ext data]). rewrite <- app_assoc. auto.
Qed.

(* ---- a whole connection ---- *)

Lemma deliver_flat o k skip keep ps :
  agreeable o -> ok_connect k -> Forall ok_pkt ps -> no_end ps ->
  o_connected o (connect_fixed k) = inl (skip, keep) -> 0 <= skip ->
  exists evs fs f,
    fbytes o (FConn []) (encode_connect k ++ encode_all ps)
      = FRun [] 0 [] f (rev evs ++ greeting o k) /\
    told (k_initial k) skip keep ps evs fs /\ finv (k_initial k) skip keep ps fs f.
Proof.
  intros Ha Hk Hps Hne Hc Hs. pose proof Ha as (_ & Hcd & _ & _).
  rewrite fbytes_app, (connect_run o k skip keep Hk Hcd Hc).
  apply told_run; auto. apply start_finv; [|exact Hs]. destruct Hk as (_ & _ & Hk & _). lia.
Qed.

Lemma rev_greeting o k evs : rev (rev evs ++ greeting o k) = greeting o k ++ evs.
Proof.
  rewrite rev_app_distr, rev_involutive. f_equal. unfold greeting. destruct (o_has_connect_data o); reflexivity.
Qed.
