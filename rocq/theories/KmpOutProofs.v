(* Lemmas about the sending side of KMP: slices, packets, one upstream. *)
From Coq Require Import ZArith List Bool Lia Arith.
From Coq Require Import ZifyBool ZifyNat.
From Verif Require Import Bytes KmpInModel KmpInSpec KmpOutModel KmpOutSpec.
Import ListNotations.
Open Scope Z_scope.

Lemma zlen_nonneg {A} (l : list A) : 0 <= zlen l.
Proof. unfold zlen; lia. Qed.
Lemma zlen_app {A} (a b : list A) : zlen (a ++ b) = zlen a + zlen b.
Proof. unfold zlen; rewrite app_length; lia. Qed.
Lemma zlen_nil {A} : zlen (@nil A) = 0.
Proof. reflexivity. Qed.

Lemma encode_all_app a b : encode_all (a ++ b) = encode_all a ++ encode_all b.
Proof. unfold encode_all. rewrite map_app, concat_app. reflexivity. Qed.
Lemma encode_all_one p : encode_all [p] = encode p.
Proof. unfold encode_all. cbn. apply app_nil_r. Qed.
Lemma encode_all_cons p r : encode_all (p :: r) = encode p ++ encode_all r.
Proof. reflexivity. Qed.

Lemma frames_sent_app a b : frames_sent (a ++ b) = frames_sent a + frames_sent b.
Proof. unfold frames_sent. rewrite filter_app, app_length. lia. Qed.

Lemma encode_not_nil p : encode p <> [].
Proof.
  intros H. apply (f_equal (@length Z)) in H.
  destruct p; cbn [encode] in H; unfold wire, wire_header in H;
    rewrite !app_length, le_length in H; cbn in H; lia.
Qed.

Lemma last_media_info_snoc a p :
  last_media_info (a ++ [p]) =
  match p with PMediaInfo _ _ _ => encode p | _ => last_media_info a end.
Proof.
  induction a as [|q a IH].
  - destruct p; reflexivity.
  - cbn [app last_media_info]. rewrite IH.
    destruct q, p; reflexivity.
Qed.

Lemma is_prefix_refl {A} (l : list A) : is_prefix l l.
Proof. exists []. rewrite app_nil_r; reflexivity. Qed.
Lemma is_prefix_trans {A} (a b d : list A) : is_prefix a b -> is_prefix b d -> is_prefix a d.
Proof. intros [r ->] [s ->]. exists (r ++ s). rewrite app_assoc; reflexivity. Qed.
Lemma is_prefix_app {A} (a b : list A) : is_prefix a (a ++ b).
Proof. exists b; reflexivity. Qed.

Lemma prefix_zlen pk pk' : is_prefix pk pk' -> zlen (encode_all pk) <= zlen (encode_all pk').
Proof.
  intros [r ->]. rewrite encode_all_app, zlen_app.
  pose proof (zlen_nonneg (encode_all r)); lia.
Qed.

(* slices *)
Lemma slice_mid a b d : slice (zlen a) (zlen a + zlen b) (a ++ b ++ d) = b.
Proof.
  unfold slice, zlen.
  replace (Z.to_nat (Z.of_nat (length a))) with (length a) by lia.
  replace (Z.to_nat (Z.of_nat (length a) + Z.of_nat (length b) - Z.of_nat (length a)))
    with (length b) by lia.
  rewrite skipn_app, skipn_all, Nat.sub_diag. cbn [app skipn].
  rewrite firstn_app, firstn_all, Nat.sub_diag. cbn. apply app_nil_r.
Qed.

Lemma slice_app_l from to a b : to <= zlen a -> 0 <= from ->
  slice from to (a ++ b) = slice from to a.
Proof.
  unfold slice, zlen. intros H Hf.
  rewrite skipn_app, firstn_app, skipn_length.
  destruct (Z.le_gt_cases to from) as [L|L].
  - replace (Z.to_nat (to - from)) with O by lia. reflexivity.
  - replace (Z.to_nat (to - from) - (length a - Z.to_nat from))%nat with O by lia.
    cbn. apply app_nil_r.
Qed.

Lemma slice_prefix_mid s tl a b d :
  s ++ tl = a ++ b ++ d -> zlen a + zlen b <= zlen s ->
  slice (zlen a) (zlen a + zlen b) s = b.
Proof.
  intros E H.
  rewrite <- (slice_app_l _ _ s tl) by (try lia; apply zlen_nonneg).
  rewrite E. apply slice_mid.
Qed.

Lemma slice_length from to l : 0 <= from -> from <= to -> to <= zlen l ->
  zlen (slice from to l) = to - from.
Proof.
  unfold slice, zlen. intros. rewrite firstn_length, skipn_length. lia.
Qed.

Lemma slice_length_le from to l : zlen (slice from to l) <= Z.max 0 (to - from).
Proof. unfold slice, zlen. rewrite firstn_length. lia. Qed.

Lemma skipn_add {A} x y (l : list A) : skipn (x + y) l = skipn x (skipn y l).
Proof.
  revert l; induction y as [|y IH]; intros l; [rewrite Nat.add_0_r; reflexivity|].
  replace (x + S y)%nat with (S (x + y)) by lia.
  destruct l; [rewrite !skipn_nil; reflexivity|]. cbn [skipn]. apply IH.
Qed.

Lemma firstn_add {A} x y (l : list A) : firstn (x + y) l = firstn x l ++ firstn y (skipn x l).
Proof.
  revert l; induction x as [|x IH]; intros l; [reflexivity|].
  destruct l; cbn [plus firstn skipn app]; [rewrite firstn_nil; reflexivity|].
  rewrite IH. reflexivity.
Qed.

Lemma slice_join a b d l : 0 <= a -> a <= b -> b <= d -> d <= zlen l ->
  slice a b l ++ slice b d l = slice a d l.
Proof.
  unfold slice, zlen. intros.
  replace (Z.to_nat (d - a)) with (Z.to_nat (b - a) + Z.to_nat (d - b))%nat by lia.
  replace (Z.to_nat b) with (Z.to_nat (b - a) + Z.to_nat a)%nat by lia.
  rewrite skipn_add, firstn_add. reflexivity.
Qed.

(* headers *)
Definition pkt_type (p : pkt) : Z :=
  match p with
  | PMediaInfo _ _ _ => pt_media_info
  | PFrame _ _ _ => pt_frame
  | PNull _ _ => pt_null
  | PEnd _ _ => pt_end
  end.

Definition pkt_header (p : pkt) : list Z :=
  match p with
  | PMediaInfo mi ext _ => mi ++ ext
  | PFrame fr ext _ => wire_frame fr ++ ext
  | PNull ext _ => ext
  | PEnd ext _ => ext
  end.

Definition pkt_data (p : pkt) : list Z :=
  match p with
  | PMediaInfo _ _ d => d
  | PFrame _ _ d => d
  | PNull _ d => d
  | PEnd _ d => d
  end.

Definition head16 (p : pkt) : list Z := wire_header (pkt_type p) (pkt_header p) (pkt_data p).
Definition body (p : pkt) : list Z := pkt_header p ++ pkt_data p.

Lemma encode_split p : encode p = head16 p ++ body p.
Proof. destruct p; reflexivity. Qed.

Lemma head16_length p : length (head16 p) = 16%nat.
Proof. unfold head16, wire_header. rewrite !app_length, !le_length. reflexivity. Qed.

Lemma encode_zlen p : zlen (encode p) = 16 + zlen (pkt_header p) + zlen (pkt_data p).
Proof.
  rewrite encode_split, zlen_app. unfold body. rewrite zlen_app.
  unfold zlen at 1. rewrite head16_length. lia.
Qed.

Lemma encode_ge16 p : 16 <= zlen (encode p).
Proof.
  rewrite encode_zlen. pose proof (zlen_nonneg (pkt_header p)).
  pose proof (zlen_nonneg (pkt_data p)). lia.
Qed.

Lemma body_zlen p : zlen (body p) = zlen (encode p) - 16.
Proof. rewrite encode_zlen. unfold body. rewrite zlen_app. lia. Qed.

Lemma field_le n k m z r : (n + m <= k)%nat -> forall pre, length pre = n ->
  0 <= z < 256 ^ Z.of_nat m -> field n m (pre ++ le m z ++ r) = z.
Proof.
  intros _ pre Hp Hz. unfold field.
  rewrite skipn_app, <- Hp, skipn_all, Nat.sub_diag. cbn [app skipn].
  rewrite firstn_app, le_length, Nat.sub_diag. cbn [firstn]. rewrite app_nil_r.
  replace m with (length (le m z)) at 1 by apply le_length.
  rewrite firstn_all. apply unle_le_small. exact Hz.
Qed.

Lemma head16_type p : h_type (head16 p) = pkt_type p.
Proof.
  unfold h_type, head16, wire_header.
  change (le 4 (pkt_type p) ++ ?r) with ([] ++ le 4 (pkt_type p) ++ r).
  apply (field_le 0 4); [lia|reflexivity|].
  destruct p; cbn; unfold pt_media_info, pt_frame, pt_null, pt_end; lia.
Qed.

Lemma head16_size p : zlen (encode p) < 2 ^ 32 -> packet_size (head16 p) = zlen (encode p).
Proof.
  intros H. rewrite encode_zlen in *.
  pose proof (zlen_nonneg (pkt_header p)). pose proof (zlen_nonneg (pkt_data p)).
  unfold packet_size.
  assert (E1 : h_header_size (head16 p) = 16 + zlen (pkt_header p)).
  { unfold h_header_size, head16, wire_header. fold (zlen (pkt_header p)).
    apply (field_le 4 8); [lia|apply le_length|].
    change (256 ^ Z.of_nat 4) with (2 ^ 32). lia. }
  assert (E2 : h_data_size (head16 p) = zlen (pkt_data p)).
  { unfold h_data_size, head16, wire_header. fold (zlen (pkt_header p)) (zlen (pkt_data p)).
    rewrite (app_assoc (le 4 _) (le 4 _)).
    apply (field_le 8 12); [lia|rewrite app_length, !le_length; reflexivity|].
    change (256 ^ Z.of_nat 4) with (2 ^ 32). lia. }
  rewrite E1, E2. unfold u32. apply Z.mod_small. lia.
Qed.

Section Track.

Variable c : conf.
Variable pkts : list pkt.
Hypothesis Hconf : ok_conf c.
Hypothesis Hsend : Forall sendable pkts.

Lemma Hb : 0 < c_bufsize c.
Proof. exact (proj1 Hconf). Qed.

(* the stream is a part of the plan *)
Definition planned (t : track) : Prop := is_prefix (t_stream t) (encode_all pkts).

Lemma sendable_in pk p rest : pkts = pk ++ p :: rest -> sendable p.
Proof.
  intros E. rewrite Forall_forall in Hsend. apply Hsend. rewrite E.
  apply in_or_app; right; left; reflexivity.
Qed.

(* Reading the header of the next packet. *)
Lemma next_header t pk :
  planned t -> is_prefix pk pkts ->
  zlen (encode_all pk) + 16 <= zlen (t_stream t) ->
  exists p rest, pkts = pk ++ p :: rest /\
    slice (zlen (encode_all pk)) (zlen (encode_all pk) + 16) (t_stream t) = head16 p.
Proof.
  intros [tl Htl] [rest Hr] H.
  assert (E : t_stream t ++ tl = encode_all pk ++ encode_all rest).
  { rewrite <- Htl, Hr, encode_all_app. reflexivity. }
  destruct rest as [|p rest].
  - exfalso. apply (f_equal (@zlen Z)) in E. rewrite !zlen_app in E.
    change (encode_all []) with (@nil Z) in E. rewrite zlen_nil in E.
    pose proof (zlen_nonneg tl). lia.
  - exists p, rest. split; [exact Hr|].
    rewrite encode_all_cons, encode_split, <- app_assoc in E.
    replace 16 with (zlen (head16 p)) by (unfold zlen; rewrite head16_length; reflexivity).
    eapply slice_prefix_mid; [exact E|].
    unfold zlen at 2. rewrite head16_length. lia.
Qed.

Lemma next_body t pk p rest :
  planned t -> pkts = pk ++ p :: rest ->
  zlen (encode_all pk) + zlen (encode p) <= zlen (t_stream t) ->
  slice (zlen (encode_all pk) + 16) (zlen (encode_all pk) + zlen (encode p)) (t_stream t)
  = body p.
Proof.
  intros [tl Htl] Hr H.
  assert (E : t_stream t ++ tl = (encode_all pk ++ head16 p) ++ body p ++ encode_all rest).
  { rewrite <- Htl, Hr, encode_all_app, encode_all_cons, encode_split, <- !app_assoc.
    reflexivity. }
  assert (Z1 : zlen (encode_all pk) + 16 = zlen (encode_all pk ++ head16 p)).
  { rewrite zlen_app. unfold zlen at 3. rewrite head16_length. lia. }
  replace (zlen (encode_all pk) + zlen (encode p))
    with (zlen (encode_all pk ++ head16 p) + zlen (body p))
    by (rewrite <- Z1, body_zlen; lia).
  rewrite Z1. eapply slice_prefix_mid; [exact E|].
  rewrite <- Z1, body_zlen. lia.
Qed.

(* the part of an upstream that acknowledging does not touch *)
Definition same_io (u u' : upstream) : Prop :=
  u_id u' = u_id u /\ u_mode u' = u_mode u /\ u_required u' = u_required u /\
  u_sent_base u' = u_sent_base u /\ u_connect_data u' = u_connect_data u /\
  u_conn u' = u_conn u /\ u_queued u' = u_queued u /\ u_busy u' = u_busy u /\
  u_calling u' = u_calling u /\ u_no_republish u' = u_no_republish u /\
  u_out u' = u_out u.

Lemma same_io_refl u : same_io u u.
Proof. unfold same_io; auto 20. Qed.
Lemma same_io_trans u v x : same_io u v -> same_io v x -> same_io u x.
Proof. unfold same_io; intros A B; decompose [and] A; decompose [and] B; repeat split; congruence. Qed.

(* a step of acknowledging: from the packets pk to the packets pk ++ [p] *)
Lemma ack_one t pk p rest u :
  planned t -> pkts = pk ++ p :: rest -> acknowledged c pk u ->
  t_base t * c_bufsize c <= u_reader u ->
  zlen (encode_all pk) + zlen (encode p) <= zlen (t_stream t) ->
  zlen (encode_all pk) + zlen (encode p) < t_nbufs t * c_bufsize c ->
  exists u', ack_packet c t (set_reader u (u_reader u + 16)) (head16 p) = PkOk u' /\
    acknowledged c (pk ++ [p]) u' /\ same_io u u'.
Proof.
  intros Hpl Hr (A1 & A2 & A3 & A4) Hba Hst Hnb.
  pose proof (sendable_in _ _ _ Hr) as [Hsz Hk].
  pose proof (encode_ge16 p) as H16.
  unfold ack_packet. rewrite head16_type, head16_size by exact Hsz.
  cbn [u_reader set_reader u_acked_id u_media_info u_acked_bytes].
  change (Z.of_nat packet_header_size) with 16.
  assert (RD : stream_read c t (u_reader u + 16) (zlen (encode p) - 16) = RdOk (body p)).
  { unfold stream_read.
    rewrite A1 in *.
    destruct (Z.ltb_spec (zlen (encode_all pk) + 16) (t_base t * c_bufsize c)); [lia|].
    destruct (Z.leb_spec (t_nbufs t * c_bufsize c)
      (zlen (encode_all pk) + 16 + (zlen (encode p) - 16))); [lia|].
    destruct (Z.ltb_spec (zlen (t_stream t))
      (zlen (encode_all pk) + 16 + (zlen (encode p) - 16))); [lia|].
    f_equal.
    replace (zlen (encode_all pk) + 16 + (zlen (encode p) - 16))
      with (zlen (encode_all pk) + zlen (encode p)) by lia.
    eapply next_body; eassumption. }
  assert (Z1 : zlen (encode_all (pk ++ [p])) = zlen (encode_all pk) + zlen (encode p)).
  { rewrite encode_all_app, encode_all_one, zlen_app. reflexivity. }
  destruct p as [mi ext d|fr ext d|ext d|ext d]; cbn [pkt_type].
  - change (pt_media_info =? pt_media_info) with true. cbv iota. rewrite RD.
    eexists; split; [reflexivity|]. split; [|unfold same_io; cbn; auto 20].
    unfold acknowledged. cbn [u_reader set_acked u_acked_bytes u_acked_id u_media_info].
    rewrite Z1, frames_sent_app, last_media_info_snoc, encode_split.
    unfold frames_sent at 2. cbn [filter length].
    rewrite A1, A2, A3. repeat split; try lia.
  - change (pt_frame =? pt_media_info) with false. change (pt_frame =? pt_frame) with true.
    cbv iota. rewrite RD.
    eexists; split; [reflexivity|]. split; [|unfold same_io; cbn; auto 20].
    unfold acknowledged. cbn [u_reader set_acked u_acked_bytes u_acked_id u_media_info].
    rewrite Z1, frames_sent_app, last_media_info_snoc.
    unfold frames_sent at 2. cbn [filter length].
    rewrite A1, A2, A3, A4. repeat split; try lia.
  - change (pt_null =? pt_media_info) with false. change (pt_null =? pt_frame) with false.
    change (pt_null =? pt_null) with true. cbv iota.
    destruct Hk as [-> ->].
    eexists; split; [reflexivity|]. split; [|unfold same_io; cbn; auto 20].
    assert (E16 : zlen (encode (PNull [] [])) = 16) by reflexivity.
    unfold acknowledged. cbn [u_reader set_acked u_acked_bytes u_acked_id u_media_info].
    rewrite Z1, frames_sent_app, last_media_info_snoc.
    unfold frames_sent at 2. cbn [filter length].
    rewrite A1, A2, A3, A4, E16. repeat split; try lia.
  - destruct Hk.
Qed.

(* where acknowledging may go: not beyond the limit *)
Definition moved (pk pk' : list pkt) (limit : Z) : Prop :=
  is_prefix pk pk' /\ (pk' = pk \/ zlen (encode_all pk') <= limit).

Lemma read_packet_spec t pk u limit :
  planned t -> is_prefix pk pkts -> acknowledged c pk u ->
  t_base t * c_bufsize c <= u_reader u ->
  limit <= zlen (t_stream t) -> limit < t_nbufs t * c_bufsize c ->
  read_packet c t u limit = RpDeclined \/
  exists p rest, pkts = pk ++ p :: rest /\
    zlen (encode_all pk) + zlen (encode p) <= limit /\
    read_packet c t u limit = RpOk (set_reader u (u_reader u + 16)) (head16 p).
Proof.
  intros Hpl Hpk HA Hba Hl1 Hl2. destruct HA as (A1 & A2 & _).
  unfold read_packet. change (Z.of_nat packet_header_size) with 16.
  destruct (Z.ltb_spec limit (u_acked_bytes u + 16)) as [L|L]; [left; reflexivity|].
  rewrite A2 in L.
  destruct (next_header t pk Hpl Hpk ltac:(lia)) as (p & rest & Hr & Hh).
  assert (RD : stream_read c t (u_reader u) 16 = RdOk (head16 p)).
  { unfold stream_read. rewrite A1 in *.
    destruct (Z.ltb_spec (zlen (encode_all pk)) (t_base t * c_bufsize c)); [lia|].
    destruct (Z.leb_spec (t_nbufs t * c_bufsize c) (zlen (encode_all pk) + 16)); [lia|].
    destruct (Z.ltb_spec (zlen (t_stream t)) (zlen (encode_all pk) + 16)); [lia|].
    rewrite Hh. reflexivity. }
  rewrite RD. pose proof (sendable_in _ _ _ Hr) as [Hsz _].
  rewrite head16_size, A2 by exact Hsz.
  destruct (Z.ltb_spec limit (zlen (encode_all pk) + zlen (encode p))); [left; reflexivity|].
  right. exists p, rest. repeat split; auto.
Qed.

Lemma ack_loop_spec fuel : forall t pk u limit left count,
  planned t -> is_prefix pk pkts -> acknowledged c pk u ->
  t_base t * c_bufsize c <= u_reader u ->
  limit <= zlen (t_stream t) -> limit < t_nbufs t * c_bufsize c ->
  zlen (t_stream t) - u_reader u < Z.of_nat fuel -> 0 < Z.of_nat fuel ->
  exists u' pk', is_prefix pk' pkts /\ acknowledged c pk' u' /\ same_io u u' /\
    moved pk pk' limit /\
    ((exists l n, ack_loop fuel c t u limit left count = LpDeclined u' l n /\
        (n = count -> u' = u)) \/
     (exists n, ack_loop fuel c t u limit left count = LpDone u' n)) .
Proof.
  induction fuel as [|fuel IH]; intros t pk u limit lft count Hpl Hpk HA Hba Hl1 Hl2 Hf H0; [lia|].
  cbn [ack_loop].
  destruct (read_packet_spec t pk u limit Hpl Hpk HA Hba Hl1 Hl2)
    as [-> | (p & rest & Hr & Hle & ->)].
  { exists u, pk. repeat split; auto using is_prefix_refl, same_io_refl; try apply HA.
    left. exists lft, count. auto. }
  destruct (ack_one t pk p rest u Hpl Hr HA Hba ltac:(lia) ltac:(lia)) as (u2 & -> & HA2 & IO2).
  pose proof (sendable_in _ _ _ Hr) as [Hsz _]. rewrite head16_size by exact Hsz.
  assert (Hpk2 : is_prefix (pk ++ [p]) pkts).
  { exists rest. rewrite <- app_assoc. exact Hr. }
  assert (Z1 : zlen (encode_all (pk ++ [p])) = zlen (encode_all pk) + zlen (encode p)).
  { rewrite encode_all_app, encode_all_one, zlen_app. reflexivity. }
  destruct (lft <=? zlen (encode p)).
  - exists u2, (pk ++ [p]). repeat split; auto using is_prefix_app; try apply HA2; try apply IO2.
    + right. lia.
    + right. exists count. reflexivity.
  - pose proof (encode_ge16 p).
    destruct HA as (A1 & _). pose proof HA2 as (B1 & _).
    destruct (IH t (pk ++ [p]) u2 limit (lft - zlen (encode p)) (count + 1))
      as (u3 & pk3 & P3 & A3 & IO3 & M3 & R3); auto; try lia.
    exists u3, pk3. split; [exact P3|]. split; [exact A3|].
    split; [eapply same_io_trans; eassumption|].
    split.
    + destruct M3 as [M31 M32]. split.
      * eapply is_prefix_trans; [apply is_prefix_app|exact M31].
      * destruct M32 as [->|]; [right; lia|right; assumption].
    + destruct R3 as [(l & n & E & _)|R3]; [|right; exact R3].
      left. exists l, n. split; [exact E|].
      intros Hn. exfalso.
      assert (Hmono : forall f t u li le co u' l' n',
        ack_loop f c t u li le co = LpDeclined u' l' n' -> co <= n').
      { clear. induction f as [|f IHf]; intros; cbn [ack_loop] in H; [discriminate|].
        destruct (read_packet c t u li) as [u1 h| |u1|] eqn:R; try discriminate.
        - destruct (ack_packet c t u1 h) as [u2|u2|u2|] eqn:K; try discriminate.
          destruct (le <=? packet_size h); [discriminate|].
          apply IHf in H. lia.
        - injection H as <- <- <-. lia. }
      apply Hmono in E. lia.
Qed.

(* acknowledging up to a frame id *)
Definition ends_with_frame (pk : list pkt) : Prop :=
  pk = [] \/ exists pk1 fr ext d, pk = pk1 ++ [PFrame fr ext d].

Lemma ack_frames_loop_spec fuel : forall t pk u sent frame_id,
  planned t -> is_prefix pk pkts -> acknowledged c pk u ->
  t_base t * c_bufsize c <= u_reader u ->
  sent <= zlen (t_stream t) -> sent < t_nbufs t * c_bufsize c ->
  zlen (t_stream t) - u_reader u < Z.of_nat fuel -> 0 < Z.of_nat fuel ->
  (exists u', ack_frames_loop fuel c t u sent frame_id = UpErr u' /\
     u_no_republish u' = true /\ u_id u' = u_id u /\ u_required u' = u_required u) \/
  (exists u' pk', ack_frames_loop fuel c t u sent frame_id = UpOk u' /\
     is_prefix pk' pkts /\ acknowledged c pk' u' /\ same_io u u' /\ moved pk pk' sent /\
     u_acked_id u' = Z.max (u_acked_id u) frame_id /\
     (pk' = pk \/ ends_with_frame pk')).
Proof.
  induction fuel as [|fuel IH]; intros t pk u sent f Hpl Hpk HA Hba Hl1 Hl2 Hf H0; [lia|].
  cbn [ack_frames_loop]. change (Z.of_nat packet_header_size) with 16.
  pose proof HA as (A1 & A2 & A3 & A4).
  destruct (Z.leb_spec f (u_acked_id u)) as [L|L].
  { right. exists u, pk. repeat split; auto using is_prefix_refl; lia. }
  destruct (Z.ltb_spec sent (u_acked_bytes u + 16)) as [L1|L1].
  { left. eexists; split; [reflexivity|]. cbn. auto. }
  rewrite A2 in L1.
  destruct (next_header t pk Hpl Hpk ltac:(lia)) as (p & rest & Hr & Hh).
  assert (RD : stream_read c t (u_reader u) 16 = RdOk (head16 p)).
  { unfold stream_read. rewrite A1 in *.
    destruct (Z.ltb_spec (zlen (encode_all pk)) (t_base t * c_bufsize c)); [lia|].
    destruct (Z.leb_spec (t_nbufs t * c_bufsize c) (zlen (encode_all pk) + 16)); [lia|].
    destruct (Z.ltb_spec (zlen (t_stream t)) (zlen (encode_all pk) + 16)); [lia|].
    rewrite Hh. reflexivity. }
  rewrite RD. pose proof (sendable_in _ _ _ Hr) as [Hsz Hk].
  rewrite head16_size, A2 by exact Hsz.
  destruct (Z.ltb_spec sent (zlen (encode_all pk) + zlen (encode p))) as [L2|L2].
  { left. eexists; split; [reflexivity|]. cbn. auto. }
  destruct (ack_one t pk p rest u Hpl Hr HA Hba ltac:(lia) ltac:(lia)) as (u2 & -> & HA2 & IO2).
  assert (Hpk2 : is_prefix (pk ++ [p]) pkts).
  { exists rest. rewrite <- app_assoc. exact Hr. }
  assert (Z1 : zlen (encode_all (pk ++ [p])) = zlen (encode_all pk) + zlen (encode p)).
  { rewrite encode_all_app, encode_all_one, zlen_app. reflexivity. }
  pose proof (encode_ge16 p). pose proof HA2 as (B1 & B2 & B3 & B4).
  assert (Hid : u_acked_id u2 = u_acked_id u + frames_sent [p]).
  { rewrite B3, A3, frames_sent_app. lia. }
  assert (Hone : 0 <= frames_sent [p] <= 1).
  { destruct p; unfold frames_sent; cbn; lia. }
  destruct (IH t (pk ++ [p]) u2 sent f)
    as [(u3 & E & N & I1 & I2)|(u3 & pk3 & E & P3 & A3' & IO3 & M3 & Id3 & X3)]; auto; try lia.
  - left. exists u3. split; [exact E|]. split; [exact N|].
    destruct IO2 as (J1 & _ & J2 & _). split; congruence.
  - right. exists u3, pk3. split; [exact E|]. split; [exact P3|]. split; [exact A3'|].
    split; [eapply same_io_trans; eassumption|].
    destruct M3 as [M31 M32].
    split; [split|split].
    + eapply is_prefix_trans; [apply is_prefix_app|exact M31].
    + destruct M32 as [->|]; right; lia.
    + rewrite Id3. lia.
    + right. destruct X3 as [->|X3]; [|exact X3].
      (* the loop stopped right after p: it is a frame *)
      right. destruct p as [mi ext d|fr ext d|ext d|ext d].
      * exfalso. destruct A3' as (_ & _ & A3'' & _). rewrite frames_sent_app in A3''.
        change (frames_sent [PMediaInfo mi ext d]) with 0 in *. lia.
      * exists pk, fr, ext, d. reflexivity.
      * exfalso. destruct A3' as (_ & _ & A3'' & _). rewrite frames_sent_app in A3''.
        change (frames_sent [PNull ext d]) with 0 in *. lia.
      * destruct Hk.
Qed.

End Track.
