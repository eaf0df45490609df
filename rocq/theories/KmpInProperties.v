(* C15 - C18, C44 - C46: the receiving side of a KMP connection. *)
From Coq Require Import ZArith List Bool Lia Permutation.
From Coq Require Import ZifyBool ZifyNat.
From Verif Require Import Lists Bytes KmpInModel KmpInSpec KmpInProofs KmpInProofs2 KmpInProofs3.
Import ListNotations.
Open Scope Z_scope.

(* ---- witnesses shared by the examples ---- *)

Definition ex_video : list Z := le 4 media_video ++ le 4 7 ++ le 4 90000 ++ le 4 0 ++ le 8 0 ++ le 8 0.
Definition ex_audio : list Z := le 4 1 ++ le 4 7 ++ le 4 48000 ++ le 4 0 ++ le 8 0 ++ le 8 0.
Definition ex_connect : connect :=
  mkConnect (repeat 65 32) (repeat 66 32) 100 0 0 0 [9; 9] [1; 2; 3].
Definition ex_owner (skip : Z) (keep : bool) : owner :=
  mkOwner (fun _ => inl (skip, keep)) true (fun _ => AOk) (fun _ => ADone) (fun _ => AOk) (fun _ => true).
Definition ex_pkts : list pkt :=
  [PMediaInfo ex_video [] [5; 6];
   PFrame (mkFrame 1 10 0 2) [] [7; 7];
   PNull [4] [];
   PFrame (mkFrame 2 20 1 2) [8] [7; 8; 9];
   PFrame (mkFrame 3 (-30) 2 0) [] [1]].
Definition ex_stream : list Z := encode_connect ex_connect ++ encode_all ex_pkts.
(* one byte at a time in buffers of 3 bytes; and all at once *)
Definition ex_bytewise : schedule :=
  map (fun i => (1%nat, Some (Z.of_nat i * 3, 3%nat))) (seq 1 400).
Definition ex_atonce : schedule := [(1000%nat, Some (0, 4096%nat)); (1000%nat, Some (0, 4096%nat))].

Lemma ex_agreeable skip keep : agreeable (ex_owner skip keep).
Proof.
  repeat split; intros; cbn; unfold accepts; auto.
Qed.

Lemma ex_bytes l : forallb (fun b => (0 <=? b) && (b <? 256)) l = true -> bytes l.
Proof.
  intros H. apply Forall_forall. intros x Hx. rewrite forallb_forall in H.
  specialize (H x Hx). unfold is_byte. lia.
Qed.

Lemma ex_has_bufs : has_bufs ex_bytewise /\ has_bufs ex_atonce.
Proof.
  split; apply Forall_forall; intros x Hx; unfold ex_bytewise, ex_atonce in Hx.
  - apply in_map_iff in Hx. destruct Hx as (i & <- & _). discriminate.
  - destruct Hx as [<- |[<- |[]]]; discriminate.
Qed.

Lemma ex_ok_connect : ok_connect ex_connect.
Proof.
  split; [reflexivity|]. split; [reflexivity|]. split; [cbn; lia|].
  split; [apply ex_bytes; vm_compute; reflexivity|]. split; [apply ex_bytes; vm_compute; reflexivity|].
  split; apply Z.leb_le; vm_compute; reflexivity.
Qed.

Lemma ex_sized h d :
  forallb (fun b => (0 <=? b) && (b <? 256)) h = true ->
  forallb (fun b => (0 <=? b) && (b <? 256)) d = true ->
  (16 + Z.of_nat (length h) <=? 65536) && (Z.of_nat (length d) <=? 16777216) = true -> sized h d.
Proof.
  intros H1 H2 H3. split; [apply ex_bytes, H1|]. split; [apply ex_bytes, H2|]. lia.
Qed.

Lemma ex_ok_pkts : Forall ok_pkt ex_pkts.
Proof.
  repeat constructor; try (cbn; lia); try (apply ex_bytes; vm_compute; reflexivity);
    apply Z.leb_le; vm_compute; reflexivity.
Qed.

(* ---- C15 ---- *)

(* Two ways of splitting the same bytes into reads and buffers, each of which
   takes all of them or ends the connection, tell the owner the same events,
   leave the same counters and end the same way. *)
Theorem C15_segmentation : forall o stream s1 s2 c1 rest1 r1 c2 rest2 r2,
  has_links o -> bytes stream -> has_bufs s1 -> has_bufs s2 ->
  run o conn0 s1 stream = (c1, rest1, r1) -> (r1 <> None \/ rest1 = []) ->
  run o conn0 s2 stream = (c2, rest2, r2) -> (r2 <> None \/ rest2 = []) ->
  seen c1 = seen c2 /\ p_filter (c_parser c1) = p_filter (c_parser c2) /\ r1 = r2.
Proof.
  intros o stream s1 s2 c1 rest1 r1 c2 rest2 r2 Hl Hb H1 H2 R1 D1 R2 D2.
  destruct (run_whole _ _ _ _ _ _ Hl Hb H1 R1 D1) as (A1 & A2 & A3).
  destruct (run_whole _ _ _ _ _ _ Hl Hb H2 R2 D2) as (B1 & B2 & B3).
  unfold seen. rewrite <- A1, <- A2, <- A3, B1, B2, B3. auto.
Qed.
Print Assumptions C15_segmentation.

Example C15_segmentation_ex :
  exists c1 c2,
    run (ex_owner 0 false) conn0 ex_bytewise ex_stream = (c1, [], None) /\
    run (ex_owner 0 false) conn0 ex_atonce ex_stream = (c2, [], None) /\
    c1 <> c2 /\ length (seen c1) = 4%nat /\
    has_bufs ex_bytewise /\ has_bufs ex_atonce /\ bytes ex_stream.
Proof.
  destruct (run (ex_owner 0 false) conn0 ex_bytewise ex_stream) as [[c1 rest1] r1] eqn:E1.
  destruct (run (ex_owner 0 false) conn0 ex_atonce ex_stream) as [[c2 rest2] r2] eqn:E2.
  vm_compute in E1. vm_compute in E2.
  inversion E1; subst. inversion E2; subst. eexists _, _.
  split; [reflexivity|]. split; [reflexivity|]. split; [discriminate|]. split; [reflexivity|].
  split; [apply ex_has_bufs|]. split; [apply ex_has_bufs|]. apply ex_bytes. vm_compute. reflexivity.
Qed.

(* A connection that has taken a connect packet and whole packets has told its
   owner exactly the events [told] lists for them, in order. *)
Theorem C15_delivery : forall o k skip keep ps s c rest r,
  agreeable o -> ok_connect k -> Forall ok_pkt ps -> no_end ps ->
  o_connected o (connect_fixed k) = inl (skip, keep) -> 0 <= skip -> has_bufs s ->
  run o conn0 s (encode_connect k ++ encode_all ps) = (c, rest, r) -> (r <> None \/ rest = []) ->
  r = None /\
  exists evs fs, told (k_initial k) skip keep ps evs fs /\ seen c = greeting o k ++ evs.
Proof.
  intros o k skip keep ps s c rest r Ha Hk Hps Hne Hc Hs Hbufs R D.
  destruct (deliver_flat o k skip keep ps Ha Hk Hps Hne Hc Hs) as (evs & fs & f & F1 & F2 & F3).
  destruct (run_whole o s _ c rest r (proj1 Ha)
    (proj2 (bytes_app _ _) (conj (bytes_encode_connect k Hk) (bytes_encode_all ps Hps))) Hbufs R D)
    as (A1 & A2 & A3).
  rewrite F1 in A1, A2, A3. cbn [flat_events flat_rc] in *. split; [auto|].
  exists evs, fs. split; [exact F2|]. unfold seen. rewrite <- A1. apply rev_greeting.
Qed.
Print Assumptions C15_delivery.

(* and [told] leaves no choice *)
Theorem C15_told_unique : forall initial skip keep ps evs fs evs' fs',
  told initial skip keep ps evs fs -> told initial skip keep ps evs' fs' -> evs = evs' /\ fs = fs'.
Proof. exact told_unique. Qed.
Print Assumptions C15_told_unique.

Example C15_delivery_ex :
  exists c,
    run (ex_owner 0 false) conn0 ex_bytewise ex_stream = (c, [], None) /\
    seen c = [EConnectData [1; 2; 3];
              EMediaInfo ex_video [5; 6] 2;
              EFrame 101 (mkFrame 2 20 1 2) [7; 8; 9] 3;
              EFrame 102 (mkFrame 3 (-30) 0 0) [1] 1] /\
    agreeable (ex_owner 0 false) /\ ok_connect ex_connect /\ Forall ok_pkt ex_pkts /\ no_end ex_pkts.
Proof.
  destruct (run (ex_owner 0 false) conn0 ex_bytewise ex_stream) as [[c1 rest1] r1] eqn:E1.
  vm_compute in E1. inversion E1; subst. eexists.
  split; [reflexivity|]. split; [vm_compute; reflexivity|].
  split; [apply ex_agreeable|]. split; [apply ex_ok_connect|]. split; [apply ex_ok_pkts|].
  repeat constructor.
Qed.

(* A packet is acted on only when all of it is there. *)
Theorem C15_no_early_delivery : forall o k skip keep ps p part missing s c rest r,
  agreeable o -> ok_connect k -> Forall ok_pkt ps -> no_end ps ->
  ok_pkt p -> encode p = part ++ missing -> missing <> [] ->
  o_connected o (connect_fixed k) = inl (skip, keep) -> 0 <= skip -> has_bufs s ->
  run o conn0 s (encode_connect k ++ encode_all ps ++ part) = (c, rest, r) -> (r <> None \/ rest = []) ->
  r = None /\
  exists evs fs, told (k_initial k) skip keep ps evs fs /\ seen c = greeting o k ++ evs.
Proof.
  intros o k skip keep ps p part missing s c rest r Ha Hk Hps Hne Hp Hpart Hmiss Hc Hs Hbufs R D.
  destruct (deliver_flat o k skip keep ps Ha Hk Hps Hne Hc Hs) as (evs & fs & f & F1 & F2 & F3).
  assert (Hb : bytes (encode_connect k ++ encode_all ps ++ part)).
  { apply bytes_app. split; [apply bytes_encode_connect, Hk|].
    apply bytes_app. split; [apply bytes_encode_all, Hps|].
    pose proof (bytes_encode p Hp) as B. rewrite Hpart in B. apply bytes_app in B. apply B. }
  destruct (run_whole o s _ c rest r (proj1 Ha) Hb Hbufs R D) as (A1 & A2 & A3).
  rewrite app_assoc, fbytes_app, F1 in A1, A2, A3.
  assert (Hw : exists t h d, known t /\ sized h d /\ encode p = wire t h d).
  { destruct p as [mi ext data|fr ext data|ext data|ext data]; unfold encode, ok_pkt in *.
    - exists pt_media_info, (mi ++ ext), data. split; [known_t|]. split; [apply Hp|reflexivity].
    - exists pt_frame, (wire_frame fr ++ ext), data. split; [known_t|]. split; [apply Hp|reflexivity].
    - exists pt_null, ext, data. split; [known_t|]. split; [apply Hp|reflexivity].
    - exists pt_end, ext, data. split; [known_t|]. split; [apply Hp|reflexivity]. }
  destruct Hw as (t & h & d & W1 & W2 & W3). rewrite W3 in Hpart.
  destruct (fbytes_wire_prefix o f (rev evs ++ greeting o k) t h d part missing W1 W2 Hpart Hmiss)
    as (hdr & lft & body & X).
  rewrite X in A1, A2, A3. cbn [flat_events flat_rc] in *. split; [auto|].
  exists evs, fs. split; [exact F2|]. unfold seen. rewrite <- A1. apply rev_greeting.
Qed.
Print Assumptions C15_no_early_delivery.

Example C15_no_early_delivery_ex :
  exists c,
    run (ex_owner 0 false) conn0 ex_bytewise (ex_stream ++ firstn 41 (encode (PFrame (mkFrame 4 40 1 0) [] [6; 6])))
      = (c, [], None) /\ length (seen c) = 4%nat /\
    exists last, encode (PFrame (mkFrame 4 40 1 0) [] [6; 6])
      = firstn 41 (encode (PFrame (mkFrame 4 40 1 0) [] [6; 6])) ++ [last].
Proof.
  match goal with |- exists c, ?r = _ /\ _ => destruct r as [[c1 rest1] r1] eqn:E1 end.
  vm_compute in E1. inversion E1; subst. eexists.
  split; [reflexivity|]. split; [vm_compute; reflexivity|]. exists 6. vm_compute. reflexivity.
Qed.

(* An end of stream packet is passed on, ends the connection, and nothing after
   it is looked at. *)
Theorem C15_end_of_stream : forall o k skip keep ps ext data junk s c rest r,
  agreeable o -> ok_connect k -> Forall ok_pkt ps -> no_end ps -> sized ext data -> bytes junk ->
  o_connected o (connect_fixed k) = inl (skip, keep) -> 0 <= skip -> has_bufs s ->
  run o conn0 s (encode_connect k ++ encode_all ps ++ encode (PEnd ext data) ++ junk) = (c, rest, r) ->
  (r <> None \/ rest = []) ->
  r = Some RClosed /\
  exists evs fs, told (k_initial k) skip keep ps evs fs /\
    seen c = greeting o k ++ evs ++ [EEndStream].
Proof.
  intros o k skip keep ps ext data junk s c rest r Ha Hk Hps Hne Hp Hj Hc Hs Hbufs R D.
  destruct (deliver_flat o k skip keep ps Ha Hk Hps Hne Hc Hs) as (evs & fs & f & F1 & F2 & F3).
  assert (Hb : bytes (encode_connect k ++ encode_all ps ++ encode (PEnd ext data) ++ junk)).
  { apply bytes_app. split; [apply bytes_encode_connect, Hk|].
    apply bytes_app. split; [apply bytes_encode_all, Hps|].
    apply bytes_app. split; [exact (bytes_encode (PEnd ext data) Hp)|exact Hj]. }
  destruct (run_whole o s _ c rest r (proj1 Ha) Hb Hbufs R D) as (A1 & A2 & A3).
  rewrite app_assoc, fbytes_app, F1, fbytes_app in A1, A2, A3.
  unfold encode in A1, A2, A3. rewrite fbytes_wire in A1, A2, A3 by (try known_t; exact Hp).
  destruct (wire_header_fields pt_end ext data ltac:(cbn; unfold pt_end; lia) Hp) as (H1 & _).
  unfold fpacket in A1, A2, A3. rewrite H1 in A1, A2, A3.
  change (pt_end =? pt_connect) with false in *. change (pt_end =? pt_media_info) with false in *.
  change (pt_end =? pt_frame) with false in *. change (pt_end =? pt_null) with false in *.
  rewrite Z.eqb_refl in A1, A2, A3. cbv iota zeta in A1, A2, A3.
  rewrite fbytes_done in A1, A2, A3. cbn [flat_events flat_rc] in *. split; [auto|].
  exists evs, fs. split; [exact F2|]. unfold seen. rewrite <- A1. cbn [rev].
  rewrite rev_greeting, <- app_assoc. reflexivity.
Qed.
Print Assumptions C15_end_of_stream.

Example C15_end_of_stream_ex :
  exists c, run (ex_owner 0 false) conn0 ex_bytewise (ex_stream ++ encode (PEnd [] []) ++ [1; 2; 3])
      = (c, [1; 2; 3], Some RClosed) /\ length (seen c) = 5%nat.
Proof.
  match goal with |- exists c, ?r = _ /\ _ => destruct r as [[c1 rest1] r1] eqn:E1 end.
  vm_compute in E1. inversion E1; subst. eexists.
  split; [reflexivity|]. vm_compute; reflexivity.
Qed.

(* A second connect packet is not refused, and the owner is handed the fixed
   fields of its header as if they were its data: for this packet the property
   "the data passed on is the data of the packet" fails. *)
Theorem C15_second_connect_refuted : exists o k s c,
  agreeable o /\ ok_connect k /\ has_bufs s /\
  run o conn0 s (encode_connect k ++ encode_connect k) = (c, [], None) /\
  seen c = [EConnectData (k_data k); EConnectData (connect_fields k ++ k_data k)].
Proof.
  exists (ex_owner 0 false), (mkConnect (repeat 65 32) (repeat 66 32) 100 0 0 0 [] [1; 2; 3]), ex_atonce.
  match goal with |- exists c, _ /\ _ /\ _ /\ ?r = _ /\ _ => destruct r as [[c1 rest1] r1] eqn:E1 end.
  vm_compute in E1. inversion E1; subst. eexists.
  split; [apply ex_agreeable|]. split; [|split; [apply ex_has_bufs|]; split; [reflexivity|vm_compute; reflexivity]].
  split; [reflexivity|]. split; [reflexivity|]. split; [cbn; lia|].
  apply ex_sized; vm_compute; reflexivity.
Qed.
Print Assumptions C15_second_connect_refuted.

(* ---- C16 ---- *)

(* Every frame packet advances the frame id by one, has exactly one fate, and
   the counters count the fates. *)
Theorem C16_numbering : forall o k skip keep ps s c rest r,
  agreeable o -> ok_connect k -> Forall ok_pkt ps -> no_end ps ->
  o_connected o (connect_fixed k) = inl (skip, keep) -> 0 <= skip -> has_bufs s ->
  run o conn0 s (encode_connect k ++ encode_all ps) = (c, rest, r) -> (r <> None \/ rest = []) ->
  exists evs fs f, f = p_filter (c_parser c) /\
    told (k_initial k) skip keep ps evs fs /\ seen c = greeting o k ++ evs /\
    Z.of_nat (length fs) = frames_sent ps /\
    cur_frame_id f = (k_initial k + frames_sent ps) mod 2 ^ 64 /\
    received_frames f = tally Delivered fs /\
    skipped_duplicate f = tally Duplicate fs /\ skipped_empty f = tally Empty fs /\
    skipped_empty_duration f = tally EmptyDuration fs /\
    skipped_no_media_info f = tally NoMediaInfo fs /\ skipped_no_key f = tally NoKey fs.
Proof.
  intros o k skip keep ps s c rest r Ha Hk Hps Hne Hc Hs Hbufs R D.
  destruct (deliver_flat o k skip keep ps Ha Hk Hps Hne Hc Hs) as (evs & fs & f & F1 & F2 & F3).
  destruct (run_whole o s _ c rest r (proj1 Ha)
    (proj2 (bytes_app _ _) (conj (bytes_encode_connect k Hk) (bytes_encode_all ps Hps))) Hbufs R D)
    as (A1 & A2 & A3).
  rewrite F1 in A1, A2, A3. cbn [flat_events flat_rc flat_filter] in *.
  exists evs, fs, f. split; [exact A2|]. split; [exact F2|].
  split; [unfold seen; rewrite <- A1; apply rev_greeting|].
  split; [|destruct F3; auto 10].
  clear - F2. induction F2 as [|ps evs fs mi ext data T IH|ps evs fs ext data T IH
    |ps evs fs fr ext data T IH F|ps evs fs fr ext data x T IH F N]; rewrite ?frames_snoc.
  - reflexivity.
  - lia.
  - lia.
  - rewrite app_length. cbn [length]. lia.
  - rewrite app_length. cbn [length]. lia.
Qed.
Print Assumptions C16_numbering.

(* no frame has two fates *)
Theorem C16_one_fate : forall skip keep ps fr data x y,
  frame_fate skip keep ps fr data x -> frame_fate skip keep ps fr data y -> x = y.
Proof. exact fate_unique. Qed.
Print Assumptions C16_one_fate.

Example C16_numbering_ex :
  exists c, run (ex_owner 2 false) conn0 ex_bytewise ex_stream = (c, [], None) /\
    cur_frame_id (p_filter (c_parser c)) = 103 /\
    skipped_duplicate (p_filter (c_parser c)) = 2 /\ skipped_no_key (p_filter (c_parser c)) = 1.
Proof.
  match goal with |- exists c, ?r = _ /\ _ => destruct r as [[c1 rest1] r1] eqn:E1 end.
  vm_compute in E1. inversion E1; subst. eexists.
  split; [reflexivity|]. vm_compute; auto.
Qed.

(* A track that expects frame [next] and a client that announces [initial]: the
   frames dropped as duplicates are exactly those below the id the track
   expects afterwards, which is [next] unless the gap is over the limit. *)
Theorem C16_resume : forall next initial max_skip skip next' ps fr data,
  0 <= next -> 0 <= initial -> 0 <= max_skip ->
  start_stream next initial max_skip = (skip, next') ->
  0 <= skip /\
  (frame_fate skip false ps fr data Duplicate <->
     initial < next' /\ initial + frames_sent ps < next') /\
  (next - initial <= max_skip -> next' = next) /\
  (max_skip < next - initial -> next' = initial /\ skip = 0).
Proof.
  intros next initial max_skip skip next' ps fr data Hn Hi Hm H.
  pose proof (frames_nonneg ps) as Hf. unfold start_stream in H.
  assert (Hd : frame_fate skip false ps fr data Duplicate <-> frames_sent ps < skip).
  { split; [intros X; inversion X; assumption|intros X; constructor; exact X]. }
  rewrite Hd. destruct (initial <? next) eqn:E1.
  - destruct (max_skip <? next - initial) eqn:E2; inversion H; subst; lia.
  - inversion H; subst. lia.
Qed.
Print Assumptions C16_resume.

Example C16_resume_ex : start_stream 105 100 16 = (5, 105) /\ start_stream 105 100 4 = (0, 100)
  /\ start_stream 105 107 4 = (0, 105).
Proof. vm_compute. auto. Qed.

(* ---- C17 ---- *)

(* At every moment the bytes sent are complete acknowledgements with strictly
   increasing ids above the initial one, possibly followed by the beginning of
   one more; none acknowledges more than was asked for; and when nothing is
   left to write the last one is the highest asked for. *)
Theorem C17_acks : forall initial ops,
  let a := ack_run (acker0 initial) ops in
  exists ids, increasing initial ids /\ last ids initial <= highest initial ops /\
    if a_writing a then
      exists next n, last ids initial < next <= highest initial ops /\ (n < 40)%nat /\
        a_sent a = concat (map wire_ack ids) ++ firstn n (wire_ack next)
    else last ids initial = highest initial ops /\ a_sent a = concat (map wire_ack ids).
Proof.
  intros initial ops. cbv zeta. destruct (ack_run_inv initial ops _ _ (acker0_inv initial)) as (ids & H1 & H2).
  set (a := ack_run (acker0 initial) ops) in *. cbn [acker0 a_acked] in H2.
  destruct H1 as (I1 & I2 & I3). rewrite H2 in *. exists ids. split; [exact I1|]. split; [exact I2|].
  destruct (a_writing a).
  - destruct I3 as (J1 & J2 & J3). exists (a_packet_id a), (a_pos a). auto.
  - destruct I3 as (J1 & J2). auto.
Qed.
Print Assumptions C17_acks.

(* A socket with room for two packets empties the queue. *)
Theorem C17_drains : forall initial ops sends,
  (2 <= length sends)%nat -> Forall (fun k => 40 <= k)%nat sends ->
  a_writing (ack_run (acker0 initial) (ops ++ [Writable sends])) = false.
Proof.
  intros initial ops sends Hl Hall.
  destruct (ack_run_inv initial ops _ _ (acker0_inv initial)) as (ids & H1 & _).
  unfold ack_run in *. rewrite fold_left_app. cbn [fold_left ack_step].
  set (a := fold_left ack_step ops (acker0 initial)) in *. unfold write_handler.
  destruct (a_writing a) eqn:E; cbn [negb]; [|exact E].
  eapply drain_loop; eassumption.
Qed.
Print Assumptions C17_drains.

Example C17_ex :
  let a := ack_run (acker0 5) [Ack 7; Writable [13%nat]; Ack 9; Ack 8; Writable [100%nat; 100%nat]; Ack 9] in
  a_writing a = false /\ a_sent a = wire_ack 7 ++ wire_ack 9.
Proof. vm_compute. auto. Qed.

(* ---- C18 ---- *)

(* Whatever bytes arrive, however split, whatever fails: a video frame passed
   on after a media info is a key frame, or a key frame was passed on in
   between. *)
Theorem C18_key_first : forall o s stream c rest r a mi d sz mid id fr dat fsz post,
  waits_for_key o -> run o conn0 s stream = (c, rest, r) ->
  seen c = a ++ EMediaInfo mi d sz :: mid ++ EFrame id fr dat fsz :: post ->
  media_type_of mi = media_video -> (forall e, In e mid -> ~ is_media_info e) ->
  key_frame fr \/ exists id' fr' dat' fsz', In (EFrame id' fr' dat' fsz') mid /\ key_frame fr'.
Proof.
  intros o s stream c rest r a mi d sz mid id fr dat fsz post Hk R Hseen Hv Hmid.
  assert (H0 : ginv (c_parser conn0)) by (repeat split).
  pose proof (run_gated o Hk _ _ _ _ _ _ H0 R) as G.
  unfold seen in Hseen. apply (f_equal (@rev _)) in Hseen. rewrite rev_involutive in Hseen.
  rewrite Hseen in G. rewrite rev_app_distr in G. cbn [rev] in G. rewrite rev_app_distr in G. cbn [rev] in G.
  rewrite <- !app_assoc in G. apply gated_app in G. cbn [app] in G. destruct G as (G & _).
  unfold key_frame. destruct (Z.odd (f_flags fr)) eqn:E; [left; reflexivity|right].
  cbn [orb] in G.
  destruct (video_open_mid (rev mid) mi d sz (rev a)) as (i & f & x & y & I1 & I2); auto.
  - intros e He. apply Hmid. apply in_rev. exact He.
  - exists i, f, x, y. split; [apply in_rev; exact I1|exact I2].
Qed.
Print Assumptions C18_key_first.

Example C18_key_first_ex : waits_for_key (ex_owner 0 false) /\
  exists c rest r mid, run (ex_owner 0 false) conn0 ex_bytewise ex_stream = (c, rest, r) /\
    seen c = [EConnectData [1; 2; 3]] ++ EMediaInfo ex_video [5; 6] 2 :: mid ++
      EFrame 102 (mkFrame 3 (-30) 0 0) [1] 1 :: [] /\ media_type_of ex_video = media_video.
Proof.
  split; [intros h sk kp H; inversion H; reflexivity|].
  destruct (run (ex_owner 0 false) conn0 ex_bytewise ex_stream) as [[c1 rest1] r1] eqn:E1.
  exists c1, rest1, r1, [EFrame 101 (mkFrame 2 20 1 2) [7; 8; 9] 3].
  vm_compute in E1. inversion E1; subst. repeat split.
Qed.

(* Without a video media info no frame is dropped for lack of a key frame. *)
Theorem C18_only_video : forall o k skip keep ps s c rest r,
  agreeable o -> ok_connect k -> Forall ok_pkt ps -> no_end ps ->
  (forall mi ext data, In (PMediaInfo mi ext data) ps -> media_type_of mi <> media_video) ->
  o_connected o (connect_fixed k) = inl (skip, keep) -> 0 <= skip -> has_bufs s ->
  run o conn0 s (encode_connect k ++ encode_all ps) = (c, rest, r) -> (r <> None \/ rest = []) ->
  skipped_no_key (p_filter (c_parser c)) = 0.
Proof.
  intros o k skip keep ps s c rest r Ha Hk Hps Hne Hv Hc Hs Hbufs R D.
  destruct (C16_numbering o k skip keep ps s c rest r Ha Hk Hps Hne Hc Hs Hbufs R D)
    as (evs & fs & f & -> & T & _ & _ & _ & _ & _ & _ & _ & _ & HN).
  rewrite HN. unfold tally.
  destruct (in_dec fate_eq_dec NoKey fs) as [Hin|Hin].
  - destruct (told_no_key _ _ _ _ _ _ T Hin) as (a & mi & ext & data & b & -> & Hm).
    exfalso. apply (Hv mi ext data); [|exact Hm]. apply in_or_app. right. left. reflexivity.
  - apply (count_occ_not_In fate_eq_dec) in Hin. rewrite Hin. reflexivity.
Qed.
Print Assumptions C18_only_video.

Example C18_only_video_ex :
  exists c, run (ex_owner 0 false) conn0 ex_atonce (encode_connect ex_connect ++
      encode_all [PMediaInfo ex_audio [] []; PFrame (mkFrame 1 10 0 2) [] [7; 7]]) = (c, [], None) /\
    received_frames (p_filter (c_parser c)) = 1.
Proof.
  match goal with |- exists c, ?r = _ /\ _ => destruct r as [[c1 rest1] r1] eqn:E1 end.
  vm_compute in E1. inversion E1; subst. eexists.
  split; [reflexivity|]. vm_compute; auto.
Qed.

(* ---- C44: consistent reconnects of the low latency segmenter ---- *)

(* The full property: a client that reconnects in consistent mode to an active
   track at or before the frame the track expects loses no frame from there on.
   Proved when the client sends at least one frame the track already has (skip
   is positive), the media info comes before it, and the frame has data. *)
Theorem C44_consistent_resume_partial :
  forall o k next max_skip skip a dfr dext ddata b mi fr ext data more s c rest r,
  let ps := a ++ PFrame dfr dext ddata :: b in
  let all := ps ++ PFrame fr ext data :: more in
  agreeable o -> ok_connect k -> Forall ok_pkt all -> no_end all -> has_bufs s ->
  0 <= next < 2 ^ 64 -> 0 <= max_skip ->
  lls_start_stream next (k_initial k) max_skip true true = (skip, true) -> 0 < skip ->
  o_connected o (connect_fixed k) = inl (skip, true) ->
  (* the last duplicate, and the media info before it *)
  frames_sent a + 1 = skip -> media_in_force b = None ->
  media_in_force a = Some mi -> media_type_of mi <> media_subtitle -> data <> [] ->
  run o conn0 s (encode_connect k ++ encode_all all) = (c, rest, r) -> (r <> None \/ rest = []) ->
  next <= k_initial k + frames_sent ps /\
  In (EFrame ((k_initial k + frames_sent ps) mod 2 ^ 64) (shown fr) data (Z.of_nat (length data))) (seen c).
Proof.
  intros o k next max_skip skip a dfr dext ddata b mi fr ext data more s c rest r ps all
    Ha Hk Hok Hne Hbufs Hn Hm Hst Hpos Hc Hdup Hb Hmi Hsub Hdata R D.
  assert (Hsp : skip = next - k_initial k).
  { unfold lls_start_stream in Hst. apply pair_equal_spec in Hst. destruct Hst as (Hst & _).
    destruct (k_initial k <? next); [|lia]. destruct (max_skip <? next - k_initial k); lia. }
  assert (Hfs : skip <= frames_sent ps).
  { unfold ps. unfold frames_sent in *. rewrite filter_app, app_length. cbn [filter length]. lia. }
  split; [lia|].
  destruct (C15_delivery o k skip true all s c rest r Ha Hk Hok Hne Hc ltac:(lia) Hbufs R D)
    as (_ & evs & fs & T & ->).
  apply in_or_app. right. unfold all in T. apply (told_delivered _ _ _ _ _ _ _ _ _ _ T).
  assert (Hmf : media_in_force ps = Some mi).
  { unfold ps. clear - Hmi Hb. revert Hmi. induction a as [|p a IH]; intros Hmi; [discriminate|].
    destruct p as [m e d|f e d|e d|e d]; cbn [app media_in_force] in *; auto.
    destruct (media_in_force a) as [m'|] eqn:E.
    - rewrite (IH Hmi). reflexivity.
    - inversion Hmi; subst. replace (media_in_force (a ++ PFrame dfr dext ddata :: b)) with (@None (list Z)); [reflexivity|].
      clear - E Hb. induction a as [|p a IH]; [cbn; congruence|].
      destruct p as [m e d|f e d|e d|e d]; cbn [app media_in_force] in *; auto.
      destruct (media_in_force a); discriminate. }
  eapply fate_delivered; [exact Hfs|exact Hmf|exact Hdata|congruence|].
  intros _. right. exists a, dfr, dext, ddata, b. split; [reflexivity|]. split; [exact Hb|].
  right. auto.
Qed.
Print Assumptions C44_consistent_resume_partial.

Example C44_consistent_resume_ex :
  lls_start_stream 102 100 16 true true = (2, true) /\
  exists c, run (ex_owner 2 true) conn0 ex_bytewise ex_stream = (c, [], None) /\
    In (EFrame 102 (mkFrame 3 (-30) 0 0) [1] 1) (seen c).
Proof.
  split; [reflexivity|].
  match goal with |- exists c, ?r = _ /\ _ => destruct r as [[c1 rest1] r1] eqn:E1 end.
  vm_compute in E1. inversion E1; subst. eexists.
  split; [reflexivity|]. vm_compute. auto.
Qed.

(* It fails when the client resumes exactly at the expected frame: the answer
   is "no duplicates, do not wait for a key frame", but the wish not to wait is
   only looked at when a duplicate is dropped, so a video frame that is not a
   key frame is lost. *)
Theorem C44_consistent_resume_refuted :
  exists o k next max_skip mi fr data s c,
    agreeable o /\ ok_connect k /\
    Forall ok_pkt [PMediaInfo mi [] []; PFrame fr [] data] /\ has_bufs s /\
    k_initial k = next /\
    lls_start_stream next (k_initial k) max_skip true true = (0, true) /\
    o_connected o (connect_fixed k) = inl (0, true) /\
    media_type_of mi <> media_subtitle /\ data <> [] /\
    run o conn0 s (encode_connect k ++ encode_all [PMediaInfo mi [] []; PFrame fr [] data]) = (c, [], None) /\
    (forall id fr' d sz, ~ In (EFrame id fr' d sz) (seen c)) /\
    skipped_no_key (p_filter (c_parser c)) = 1.
Proof.
  exists (ex_owner 0 true), ex_connect, 100, 16, ex_video, (mkFrame 1 10 0 2), [7; 7], ex_atonce.
  match goal with |- exists c, _ /\ _ /\ _ /\ _ /\ _ /\ _ /\ _ /\ _ /\ _ /\ ?r = _ /\ _ =>
    destruct r as [[c1 rest1] r1] eqn:E1 end.
  vm_compute in E1. inversion E1; subst. eexists.
  split; [apply ex_agreeable|]. split; [apply ex_ok_connect|].
  split; [repeat constructor; try (cbn; lia); try (apply ex_bytes; vm_compute; reflexivity);
    apply Z.leb_le; vm_compute; reflexivity|].
  split; [apply ex_has_bufs|]. split; [reflexivity|]. split; [reflexivity|]. split; [reflexivity|].
  split; [vm_compute; discriminate|]. split; [discriminate|]. split; [reflexivity|].
  split; [|reflexivity]. intros id fr' d sz H. vm_compute in H.
  destruct H as [H|[H|[]]]; discriminate.
Qed.
Print Assumptions C44_consistent_resume_refuted.

(* ---- C45: buffer links ---- *)

(* Every chain link taken for a connection, whatever arrives and whatever
   fails, is, once the connection is closed, either freed or in the hands of the
   handler that accepted it: each link once. *)
Theorem C45_links : forall o s stream c rest r,
  run o conn0 s stream = (c, rest, r) ->
  let l := cleanup c in
  Permutation (seq 0 (l_next l)) (l_freed l ++ l_given l) /\
  NoDup (l_freed l ++ l_given l) /\
  l_given l = kept o (p_calls (c_parser c)).
Proof.
  intros o s stream c rest r R l.
  destruct (cleanup_links o c (run_links o s conn0 stream c rest r (conn0_links o) R)) as (H1 & H2).
  split; [exact H1|]. split; [|exact H2].
  eapply Permutation_NoDup; [exact H1|]. apply seq_NoDup.
Qed.
Print Assumptions C45_links.

Example C45_links_ex :
  exists c, run (ex_owner 0 false) conn0 ex_bytewise ex_stream = (c, [], None) /\
    l_next (cleanup c) = 44%nat /\ length (l_given (cleanup c)) = 3%nat.
Proof.
  match goal with |- exists c, ?r = _ /\ _ => destruct r as [[c1 rest1] r1] eqn:E1 end.
  vm_compute in E1. inversion E1; subst. eexists.
  split; [reflexivity|]. vm_compute; auto.
Qed.

(* ---- C46: hostile input ---- *)

(* For any bytes: parsing always comes to an end (no RFuel), an open connection
   holds at most one packet of the largest size, and each event announces
   exactly the size of the data passed with it, within the limits. *)
Theorem C46_hostile : forall o s stream c rest r,
  has_links o -> bytes stream -> has_bufs s ->
  run o conn0 s stream = (c, rest, r) ->
  r <> Some RFuel /\ Forall right_size (seen c) /\
  (r = None -> Z.of_nat (length (node_bytes (p_data (c_parser c)))) < 64 * 1024 + 16 * 1024 * 1024).
Proof.
  intros o s stream c rest r Hl Hb Hs R.
  destruct (run_sim o Hl s conn0 stream c rest r conn0_inv Hb Hs R) as (got & -> & G2 & G3 & G4 & _).
  split; [exact G4|].
  apply bytes_app in Hb. destruct Hb as (Hb & _).
  assert (Hg : fgood (cview c r)).
  { rewrite <- G2. apply fbytes_good; [exact Hb|constructor]. }
  split.
  - unfold seen. apply Forall_rev. destruct r as [e|].
    + exact Hg.
    + specialize (G3 eq_refl). unfold cview, cinv in *. destruct (c_header_read c).
      * destruct Hg as (_ & Hg & _). exact Hg.
      * destruct G3 as (_ & _ & ->). constructor.
  - intros ->. specialize (G3 eq_refl). unfold cinv in G3. destruct (c_header_read c).
    + destruct G3 as (_ & _ & _ & P1 & P2 & P3). destruct (Z.eq_dec (p_left (c_parser c)) 0) as [E|E].
      * rewrite (P2 E). cbn. lia.
      * destruct (P3 ltac:(lia)) as (_ & B1 & B2 & B3). lia.
    + destruct G3 as (_ & _ & ->). cbn. lia.
Qed.
Print Assumptions C46_hostile.

Example C46_hostile_ex :
  exists c, run (ex_owner 0 false) conn0 ex_bytewise (ex_stream ++ [1; 2; 3] ++ repeat 255 20)
     = (c, repeat 255 7, Some RBadRequest) /\ length (seen c) = 4%nat.
Proof.
  match goal with |- exists c, ?r = _ /\ _ => destruct r as [[c1 rest1] r1] eqn:E1 end.
  vm_compute in E1. inversion E1; subst. eexists.
  split; [reflexivity|]. vm_compute; auto.
Qed.
