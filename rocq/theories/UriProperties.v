(* C99-C102: the uris of playlists, the requests between the packager and the
   live server, the names of files and the ranges of requests. *)
From Coq Require Import String Ascii ZArith List Bool Lia ZifyBool.
From Verif Require Import Bytes M3u8Model M3u8Spec M3u8Proofs M3u8Proofs4 M3u8Proofs7 M3u8Proofs9 M3u8Properties UriModel UriSpec UriProofs UriProofs2 UriProofs3 UriProofs4 UriProofs5 UriProofs6 UriProofs7 UriProofs8 UriProofs9.
Import ListNotations.
Open Scope Z_scope.

(* ----- C99: every uri of a playlist is served as what it is announced as *)

Definition served (l : loc) (ch tl : list Z) (c : channel) (can : Z) (u : list Z) (w : kind) : Prop :=
  reaches l ch tl u [] w [c_variant c] (Z.land (c_media_types c) can).

(* the uri of every segment, part, initialization segment and hint that a
   player finds in a playlist: the packager accepts it and asks the live
   server for just that *)
Theorem announced_uris_are_served l f c m text ch tl can :
  playlist_ok f c m -> index_build f c = Some text ->
  loc_ok l -> Forall is_byte ch -> Forall is_byte tl ->
  container (f_seg_ext f) can -> (forall x, f_init_ext f = Some x -> x = str ".mp4") ->
  id_ok (c_variant c) -> c_variant c <> str "tpp" -> fits (c_media_types c) can ->
  single (c_media_types c) \/ (forall i, parts_at i c = []) ->
  (forall i, zlen (parts_at i c) < none) ->
  exists y, play m text = Some y
  /\ Forall2 (fun s px => let p := fst px in let i := fst (fst (snd px)) in
       served l ch tl c can (s_uri s) (Segment i)
       /\ (forall k pt, nth_error (s_parts s) k = Some pt -> served l ch tl c can (pt_uri pt) (Part i (Z.of_nat k)))
       /\ match s_map s with
          | Some u => reaches l ch tl u [] (Init (info_at (p_index p) c)) [c_variant c] (c_media_types c)
          | None => f_init_ext f = None
          end)
     (y_segs y) (flat_map (fun p => map (pair p) (segments p)) (c_periods c))
  /\ (forall k pt, nth_error (x_parts (y_next y)) k = Some pt ->
       exists i t, pending c = Some (i, t) /\ served l ch tl c can (pt_uri pt) (Part i (Z.of_nat k)))
  /\ (forall u, y_hint y = Some u ->
       exists i, In i (listed (c_periods c)) /\ served l ch tl c can u (Part i (zlen (parts_at i c) - 1))).
Proof.
  intros OK B L Hc Ht C HI I T F S PL. destruct (playlist_reaches_the_player _ _ _ _ OK B) as (y & v & P & _ & _ & Sg & Hh & _ & _ & Hx).
  destruct OK as (_ & (TN & TO) & _ & PO & _).
  assert (Forall minfo_ok (c_tracks c)) as MI by (eapply Forall_impl; [|exact TO]; intros t Q; apply Q).
  assert (forall i, 0 <= i < none -> served l ch tl c can (seg_uri f c i) (Segment i)) as GS.
  { intros i R. unfold served, seg_uri, selector. apply seg_reaches; assumption. }
  assert (forall i k, 0 <= i < none -> 0 <= k < zlen (parts_at i c) -> served l ch tl c can (part_uri f c i (k + 1)) (Part i k)) as GP.
  { intros i k R K. destruct S as [S|S]; [|rewrite S in K; unfold zlen in K; cbn in K; lia]. unfold served, part_uri, selector.
    apply part_reaches; try assumption; [left; exact S | specialize (PL i); lia]. }
  assert (forall i t k pt, 0 <= i < none -> nth_error (parts_of f c i t) k = Some pt -> served l ch tl c can (pt_uri pt) (Part i (Z.of_nat k))) as GQ.
  { intros i t k pt R N. unfold parts_of in N. apply parts_nth in N. destruct N as [-> N]. replace (1 + Z.of_nat k) with (Z.of_nat k + 1) by lia. apply GP; [exact R | unfold zlen; lia]. }
  assert (forall i u, 0 <= i < none -> init_uri f c i = Some u -> reaches l ch tl u [] (Init (info_at i c)) [c_variant c] (c_media_types c)) as GI.
  { intros i u R U. unfold init_uri in U. destruct (f_init_ext f) as [x|]; [|discriminate]. rewrite (HI x eq_refl) in U. injection U as <-. unfold selector.
    apply init_reaches; try assumption.
    - destruct F as [F|[F1 F2]]; [left; exact F | right; split; [exact F1|]]. change 7 with (Z.ones 3). rewrite Z.land_ones by lia. apply Z.mod_small. lia.
    - apply (info_at_range i c TN MI). unfold INVALID_INDEX, none in *. lia. }
  exists y. split; [exact P|]. split; [|split].
  - rewrite Sg. unfold expected.
    assert (forall p, In p (c_periods c) -> 0 <= p_index p <= none /\ Forall (fun x => 0 <= fst (fst x) < none) (segments p)) as PR.
    { intros p Ip. destruct (periods_range _ 0 p (Z.le_refl 0) PO Ip) as (A1 & A2 & A3). split.
      - pose proof (zlen_nonneg (durations p)). destruct (existsb _ _); lia.
      - apply Forall_forall. intros x X. apply (segment_range _ p x PO Ip X). }
    revert PR. generalize true, (@None Z). generalize (c_periods c). clear Sg Hx Hh PO. induction l0 as [|p ps IH]; intros first rate PR; [apply Forall2_nil|].
    cbn [segs_of flat_map]. apply Forall2_app; [|apply IH; intros q Iq; apply PR; right; exact Iq].
    destruct (PR p (or_introl eq_refl)) as [R1 R2]. clear IH PR.
    assert (segments p <> [] -> p_index p < none) as R3.
    { intros NE. destruct (segments p) as [|x r] eqn:E; [congruence|]. inversion R2; subst. unfold segments in E. destruct (durations p); [discriminate|]. cbn [place] in E. injection E as <- _. cbn [fst] in *. lia. }
    assert (exists es mm disc date, run_of f c (f_est f (infos_at (p_index p) c)) (init_uri f c (p_index p)) (negb first || starts_period c p) (date_of f c p) rate (segments p)
      = run_of f c es mm disc date rate (segments p) /\ mm = init_uri f c (p_index p)) as (es & mm & disc & date & -> & Emm).
    { do 4 eexists. split; reflexivity. }
    assert (forall q, p_index q = p_index p -> match mm with Some u => segments p <> [] -> reaches l ch tl u [] (Init (info_at (p_index q) c)) [c_variant c] (c_media_types c) | None => f_init_ext f = None end) as GM.
    { intros q Eq. rewrite Eq. subst mm. destruct (init_uri f c (p_index p)) as [u|] eqn:E; [intros NE; apply GI; [specialize (R3 NE); lia | exact E] |].
      unfold init_uri in E. destruct (f_init_ext f); [discriminate | reflexivity]. }
    specialize (GM p eq_refl). assert (match mm with Some u => segments p = [] \/ reaches l ch tl u [] (Init (info_at (p_index p) c)) [c_variant c] (c_media_types c) | None => f_init_ext f = None end) as GM2.
    { destruct mm; [|exact GM]. destruct (segments p); [left; reflexivity | right; apply GM; discriminate]. }
    assert (segments p = [] \/ match mm with Some u => reaches l ch tl u [] (Init (info_at (p_index p) c)) [c_variant c] (c_media_types c) | None => f_init_ext f = None end) as [E|GM3].
    { destruct mm; [exact GM2 | right; exact GM2]. }
    + rewrite E. apply Forall2_nil.
    + clear GM GM2 Emm R1 R3. revert disc date rate. induction (segments p) as [|[[i t0] t1] r IH]; intros disc date rate; [apply Forall2_nil|].
      inversion R2 as [|? ? Ri R2']; subst. cbn [fst] in Ri. cbn [run_of map]. apply Forall2_cons; [|apply IH; exact R2'].
      cbn [fst snd s_uri s_parts s_map]. split; [apply GS; exact Ri|]. split; [intros k pt N; apply (GQ i t0); assumption | exact GM3].
  - rewrite Hx. intros k pt N. unfold pending in *. destruct (pending_of (c_periods c)) as [[i t]|] eqn:E; [|destruct k; discriminate].
    exists i, t. split; [reflexivity|]. apply (GQ i t); [apply (pending_range _ i t PO E) | exact N].
  - rewrite Hh. intros u U. apply hint_found in U. destruct U as [U|(i & Ii & U)]; [discriminate|]. exists i. split; [exact Ii|].
    apply hint_uri in U. destruct U as [-> K]. pose proof (listed_range _ i PO Ii) as R.
    replace (part_uri f c i (zlen (parts_at i c))) with (part_uri f c i ((zlen (parts_at i c) - 1) + 1)) by (f_equal; lia). apply GP; [exact R | lia].
Qed.
Print Assumptions announced_uris_are_served.

(* the playlists of the other renditions *)
Theorem reported_playlists_are_served l f c m text ch tl :
  playlist_ok f c m -> index_build f c = Some text ->
  loc_ok l -> Forall is_byte ch -> Forall is_byte tl ->
  Forall (fun rr => id_ok (fst rr) /\ Forall (fun r => 0 <= r_type r <= 2) (snd rr)) (c_reports c) ->
  exists y, play m text = Some y
  /\ Forall2 (fun u rr => reaches l ch tl (fst (fst u)) [] (Playlist 0) [fst rr] (2 ^ r_type (snd rr)))
       (y_reports y) (flat_map (fun rr => map (pair (fst rr)) (snd rr)) (c_reports c)).
Proof.
  intros OK B L Hc Ht H. destruct (playlist_reaches_the_player _ _ _ _ OK B) as (y & v & P & _ & _ & _ & _ & R & _).
  exists y. split; [exact P|]. rewrite R. unfold reports_of. clear - L Hc Ht H.
  induction (c_reports c) as [|[id rs] rr IH]; [apply Forall2_nil|]. inversion H as [|? ? [I T] H']; subst. cbn [fst snd] in I, T. cbn [flat_map fst snd].
  apply Forall2_app; [|apply IH; exact H']. clear IH H H'. induction rs as [|r rs IH]; [apply Forall2_nil|]. inversion T; subst. cbn [map]. apply Forall2_cons; [|apply IH; assumption].
  cbn [fst snd report_of]. rewrite Z.shiftl_1_l. apply index_reaches; try assumption.
  assert (r_type r = 0 \/ r_type r = 1 \/ r_type r = 2) as E by lia. destruct E as [E|[E|E]]; rewrite E; vm_compute; split; discriminate.
Qed.
Print Assumptions reported_playlists_are_served.

(* the key of an encrypted playlist, when the packager serves keys *)
Theorem announced_key_is_served l f c m text ch tl k :
  playlist_ok f c m -> index_build f c = Some text ->
  loc_ok l -> l_serve_key l = true -> Forall is_byte ch -> Forall is_byte tl -> id_ok (c_variant c) ->
  f_key f = Some k -> k_uri k = None -> k_scheme k <> 3 -> 0 <= k_scope k <= 3 ->
  (forall t, In t (c_tracks c) -> t_type t = 0 \/ t_type t = 1) ->
  exists y e t, play m text = Some y /\ i_enc (y_info y) = Some e /\ In t (c_tracks c)
  /\ reaches l ch tl (n_uri e) [] KeyFile (if 2 <=? k_scope k then [c_variant c] else [])
       (if (k_scope k =? 1) || (k_scope k =? 3) then 2 ^ t_type t else 3).
Proof.
  intros OK B L SK Hc Ht I K KU KS KR TT. destruct (playlist_reaches_the_player _ _ _ _ OK B) as (y & v & P & Inf & _).
  destruct OK as (_ & (TN & TO) & _). destruct (c_tracks c) as [|t ts] eqn:E; [congruence|].
  exists y. eexists. exists t. split; [exact P|]. rewrite Inf. unfold info_of. cbn [i_enc]. rewrite K, E. cbn [option_map]. split; [reflexivity|]. split; [left; reflexivity|].
  unfold enc_of. cbn [n_uri]. unfold key_uri. rewrite KU. assert (k_scheme k =? 3 = false) as -> by lia.
  rewrite <- Z.shiftl_1_l. apply key_reaches; try assumption. apply TT. left. reflexivity.
Qed.
Print Assumptions announced_key_is_served.

(* a concrete case: the playlist of C94 with two periods, parts, a hint, a
   key and a report *)
Definition ex_loc : loc :=
  {| l_base_flags := 256 + 2 ^ 27; l_active_policy := 2 ^ 20; l_parts := true; l_reports := true;
     l_skip_percent := 600; l_serve_key := true |}.
Example ex_loc_ok : loc_ok ex_loc.
Proof. split; [exists true, false; reflexivity|]. split; [left; reflexivity | cbn; lia]. Qed.
Example ex_id_ok : id_ok (c_variant ex_chan) /\ c_variant ex_chan <> str "tpp".
Proof.
  split; [|vm_compute; discriminate]. split; [bytes_tac|]. repeat split; vm_compute; intuition discriminate.
Qed.
Example ex_announced : exists y, play None (index_text ex_conf ex_chan) = Some y /\ length (y_segs y) = 4%nat
  /\ y_hint y = Some (str "part-9-2-sa%20b-v.m4s")
  /\ served ex_loc (str "ch") (str "main") ex_chan 7 (str "part-9-2-sa%20b-v.m4s") (Part 8 1).
Proof.
  destruct ex_id_ok as [I1 I2].
  destruct (announced_uris_are_served ex_loc ex_conf ex_chan None (index_text ex_conf ex_chan) (str "ch") (str "main") 7 ex_ok (proj1 ex_text) ex_loc_ok) as (y & P & S & _ & H); try assumption.
  - bytes_tac.
  - bytes_tac.
  - right; left; split; reflexivity.
  - intros x E. injection E as <-. reflexivity.
  - right; split; [cbn; lia | reflexivity].
  - left; left; reflexivity.
  - intros i. unfold parts_at. cbn [c_tracks ex_chan ex_track t_parts]. cbn [find fst snd]. destruct (7 =? i); [vm_compute; reflexivity|]. destruct (8 =? i); vm_compute; reflexivity.
  - exists y. split; [exact P|].
    assert (length (y_segs y) = 4%nat /\ y_hint y = Some (str "part-9-2-sa%20b-v.m4s")) as [A B].
    { assert (option_map (fun y => (length (y_segs y), y_hint y)) (play None (index_text ex_conf ex_chan)) = Some (4%nat, Some (str "part-9-2-sa%20b-v.m4s"))) as E by (vm_compute; reflexivity).
      rewrite P in E. cbn [option_map] in E. injection E as E1 E2. split; assumption. }
    split; [exact A|]. split; [exact B|]. change (str "part-9-2-sa%20b-v.m4s") with (part_uri ex_conf ex_chan 8 (1 + 1)).
    unfold served, part_uri, selector. apply part_reaches; try assumption; try bytes_tac; try (unfold none; lia).
    + apply ex_loc_ok.
    + right; left; split; reflexivity.
    + right; split; [cbn; lia | reflexivity].
    + left; left; reflexivity.
Qed.
Example ex_reported :
  Forall (fun rr => id_ok (fst rr) /\ Forall (fun r => 0 <= r_type r <= 2) (snd rr)) (c_reports ex_chan)
  /\ (f_key ex_conf = Some ex_key /\ k_uri ex_key = None /\ k_scheme ex_key <> 3 /\ 0 <= k_scope ex_key <= 3)
  /\ (forall t, In t (c_tracks ex_chan) -> t_type t = 0 \/ t_type t = 1).
Proof.
  split; [|split].
  - apply Forall_cons; [|apply Forall_nil]. cbn [fst snd]. split; [split; [bytes_tac | repeat split; vm_compute; intuition discriminate]|]. apply Forall_cons; [cbn; lia | apply Forall_nil].
  - cbn. repeat split; lia || discriminate.
  - intros t [<-|[]]. left. reflexivity.
Qed.

(* the variant with the id "tpp": its segments are announced in the playlists
   of fragmented mp4, and refused, for the name ends in "-stpp" *)
Theorem variant_tpp_is_served_refuted l f c args i :
  f_seg_ext f = str ".m4s" -> c_variant c = str "tpp" -> c_media_types c = 7 -> 0 <= i < none ->
  fetch l (seg_uri f c i) args = Bad.
Proof.
  intros E V M R. unfold seg_uri, selector. rewrite E, V, M.
  replace (str "seg-" ++ dec (i + 1) ++ sep_selector (str "tpp") 7 ++ str ".m4s") with ((str "seg-" ++ dec (i + 1) ++ str "-stpp") ++ 46 :: str "m4s")
    by (rewrite <- !app_assoc; reflexivity).
  rewrite fetch_plain; [| apply safe_app; [safe_lit | apply safe_app; [apply dec_safe | safe_lit]] | safe_lit | vm_compute; intuition discriminate].
  rewrite core_m4s. unfold parse_m4s. change (str "seg-" ++ dec (i + 1) ++ str "-stpp") with (str "seg" ++ (45 :: dec (i + 1)) ++ str "-stpp"). rewrite seg_of_text.
  rewrite (stripped_fmp4 ((45 :: dec (i + 1)) ++ str "-stpp") (45 :: dec (i + 1))) by (unfold stripped; destruct (list_eq_dec _ _ _); [right; left; reflexivity | congruence]).
  change (0 + seg_flags) with seg_flags.
  destruct (parse_file_name seg_flags (name0 7 3) (45 :: dec (i + 1))) as [n| |] eqn:P; [|reflexivity | exfalso; exact (file_name_over _ _ _ P)].
  apply seg_name_iff in P. destruct P as (ds & j & id & sfx & t & Q & _). exfalso. injection Q as Q. apply (dec_no 45 (i + 1) eq_refl). rewrite Q.
  apply in_or_app. right. left. reflexivity.
Qed.
Print Assumptions variant_tpp_is_served_refuted.

(* playlists of video and subtitles, with mpeg-ts segments: their segments
   are announced, and refused *)
Theorem subtitles_in_ts_are_served_refuted l f c args i :
  f_seg_ext f = str ".ts" -> id_ok (c_variant c) -> c_media_types c = 5 -> 0 <= i < none ->
  fetch l (seg_uri f c i) args = Bad.
Proof.
  intros E I M R. pose proof I as (I1 & I2 & I3 & I4). unfold seg_uri, selector. rewrite E, M.
  replace (str "seg-" ++ dec (i + 1) ++ sep_selector (c_variant c) 5 ++ str ".ts") with ((str "seg-" ++ dec (i + 1) ++ str "-s") ++ escape (c_variant c) ++ mask_text 5 ++ 46 :: str "ts")
    by (unfold sep_selector; rewrite <- !app_assoc; reflexivity).
  rewrite fetch_name; [| apply safe_app; [safe_lit | apply safe_app; [apply dec_safe | safe_lit]] | apply mask_safe | safe_lit | vm_compute; intuition discriminate | exact I].
  destruct (core_parse l _ (str "ts") args) as [a| |] eqn:P; [|reflexivity | exfalso; exact (core_over _ _ _ _ P)]. exfalso.
  destruct (names_iff l ((str "seg-" ++ dec (i + 1) ++ str "-s") ++ c_variant c ++ mask_text 5) (str "ts") 3 args (or_introl (conj eq_refl eq_refl))) as [A B].
  destruct (B a P) as (w & id & t & W). destruct (proj1 (A w id t) (ex_intro _ a (conj P W))) as (ll & S & sfx & ST & N & F).
  unfold stripped in S. destruct (list_eq_dec _ _ _) as [Q|_]; [vm_compute in Q; discriminate Q|]. subst ll.
  assert (~ (exists letters, says_types 3 (45 :: letters) t /\ In 116 letters)) as NT.
  { intros (ls & [[Q _]|(ls' & Q & _ & _ & FL & _)] & I116); [discriminate|]. injection Q as <-. rewrite Forall_forall in FL. specialize (FL 116 I116). destruct FL as [[Q _]|[[Q _]|[_ Q]]]; [discriminate | discriminate | apply Q; reflexivity]. }
  change (mask_text 5) with [45; 118; 116] in F.
  assert (forall p x y, no 45 x -> no 45 y -> p ++ x ++ [45; 118; 116] = p ++ y ++ sfx -> sfx = [45; 118; 116] \/ sfx = []) as G.
  { intros p x y Nx Ny Q. apply app_inv_head in Q. destruct ST as [[-> _]|(ls & -> & _)]; [right; reflexivity | left].
    revert y Ny Q. induction x as [|c0 x IH]; intros y Ny Q.
    - destruct y as [|d y]; [exact (eq_sym Q)|]. injection Q as Q _. exfalso. apply Ny. left. symmetry. exact Q.
    - destruct y as [|d y]; [injection Q as Q _; exfalso; apply Nx; left; exact Q|]. injection Q as _ Q. apply (IH ltac:(intros K; apply Nx; right; exact K) y ltac:(intros K; apply Ny; right; exact K) Q). }
  assert (forall x y z, no 45 x -> x ++ 45 :: y = z -> forall x' y', no 45 x' -> z = x' ++ 45 :: y' -> x = x' /\ y = y') as CUT.
  { induction x as [|c0 x IH]; intros y z Nx <- x' y' Nx' Q.
    - destruct x' as [|d x']; [injection Q as ->; split; reflexivity|]. injection Q as Q _. exfalso. apply Nx'. left. symmetry. exact Q.
    - destruct x' as [|d x']; [injection Q as Q _; exfalso; apply Nx; left; exact Q|]. injection Q as -> Q.
      destruct (IH y _ ltac:(intros K; apply Nx; right; exact K) eq_refl x' y' ltac:(intros K; apply Nx'; right; exact K) Q) as [-> ->]. split; reflexivity. }
  assert (forall ds j, says_index ds j -> no 45 ds) as ND.
  { intros ds j (D & _) K. rewrite Forall_forall in D. specialize (D 45 K). discriminate D. }
  destruct w as [j|j k|j|s|j k s| |]; try (destruct F; fail).
  - destruct F as (ds & SI & Q).
    replace ((str "seg-" ++ dec (i + 1) ++ str "-s") ++ c_variant c ++ [45; 118; 116]) with (str "seg-" ++ dec (i + 1) ++ 45 :: 115 :: c_variant c ++ [45; 118; 116]) in Q
      by (rewrite <- !app_assoc; reflexivity).
    apply app_inv_head in Q. destruct (CUT _ _ _ (dec_no 45 (i + 1) eq_refl) eq_refl ds (115 :: id ++ sfx) (ND _ _ SI) Q) as [_ Q2]. injection Q2 as Q2.
    destruct (G [] _ _ I3 N Q2) as [ -> |  -> ].
    + apply NT. exists [118; 116]. split; [exact ST | right; left; reflexivity].
    + rewrite app_nil_r in Q2. apply N. rewrite <- Q2. apply in_or_app. right. left. reflexivity.
  - destruct F as (ds & dk & _ & _ & _ & Q). discriminate Q.
Qed.
Print Assumptions subtitles_in_ts_are_served_refuted.

(* ----- C100: the live server understands what the packager asks *)

(* every request fits the buffer that the packager allocates, and the live
   server reads from it just what the packager meant *)
Theorem request_is_understood q : kreq_ok q ->
  exists text, create_request q = Some text /\ zlen text <= request_size q
  /\ parse_args live_arg text params0 = Some (same q).
Proof.
  intros K. exists (request_text q).
  assert (zlen (request_text q) <= request_size q) as L. { apply request_len. destruct K as (_ & _ & _ & _ & _ & _ & _ & _ & T & _). lia. }
  split; [unfold create_request; destruct (_ >? _) eqn:E; [lia | reflexivity]|]. split; [exact L | apply args_understood; exact K].
Qed.
Print Assumptions request_is_understood.

(* a blocking request for a playlist of one media type *)
Theorem blocking_request_is_understood f ch tl id types i k skip :
  loc_ok f -> Forall is_byte ch -> Forall is_byte tl -> id_ok id -> single types ->
  0 <= i < none -> k = -1 \/ 0 <= k < none ->
  reaches f ch tl (str "index" ++ sep_selector id types ++ str ".m3u8") (wait_args i k skip)
    (Wait i k (if skip then l_skip_percent f else 0)) [id] types.
Proof. apply wait_reaches. Qed.
Print Assumptions blocking_request_is_understood.

Definition ex_req : kreq :=
  {| k_channel := str "a&b=c d%"; k_timeline := str "main"; k_ids := Some (str "x y"); k_mask := 5; k_seg := 7; k_max_seg := none;
     k_part := 0; k_skip := 600; k_time := 2 ^ 63 - 1; k_padding := 12; k_flags := 2 ^ 30 + 9 |}.
Example ex_req_ok : kreq_ok ex_req /\ request_text ex_req
  = str "channel_id=a%26b=c%20d%25&timeline_id=main&flags=40000009&variant_ids=x%20y&segment_index=7&part_index=0&skip_boundary_percent=600&media_type_mask=5&padding=12".
Proof.
  split; [|vm_compute; reflexivity]. unfold kreq_ok, none; cbn [ex_req k_channel k_timeline k_ids k_mask k_seg k_max_seg k_part k_skip k_time k_padding k_flags].
  split; [bytes_tac|]. split; [bytes_tac|]. split; [intros v H; injection H as <-; bytes_tac|]. unfold none. do 6 (split; [lia|]). split; [right; lia | lia].
Qed.
Example ex_blocking : reaches ex_loc (str "ch") (str "main") (str "index-s1-v.m3u8") (str "_HLS_msn=8&_HLS_part=1&_HLS_skip=YES") (Wait 8 1 600) [str "1"] 1.
Proof.
  apply (blocking_request_is_understood ex_loc (str "ch") (str "main") (str "1") 1 8 1 true);
    [apply ex_loc_ok | bytes_tac | bytes_tac | split; [bytes_tac | repeat split; vm_compute; intuition discriminate] | left; reflexivity | unfold none; lia | right; unfold none; lia].
Qed.

(* a sequence number of 2^32 is read as 0: the playlist is served at once *)
Theorem blocking_request_is_exact_refuted : exists f, loc_ok f
  /\ exists a, fetch f (str "index-s1-v.m3u8") (str "_HLS_msn=4294967296") = Ok a /\ n_seg (a_name a) = 0.
Proof. exists ex_loc. split; [exact ex_loc_ok|]. eexists. split; vm_compute; reflexivity. Qed.
Print Assumptions blocking_request_is_exact_refuted.

(* a master playlist may be asked for some variants, in some order, and for
   some media types: the live server is asked for these variants in the same
   order, and for these media types *)
Theorem master_request_is_understood l ch tl ids types args :
  loc_ok l -> Forall is_byte ch -> Forall is_byte tl ->
  Forall (fun id => id_ok id /\ id <> []) ids -> 1 <= types <= 7 ->
  reaches l ch tl (master_uri ids types) args MasterList ids types.
Proof. apply master_reaches. Qed.
Print Assumptions master_request_is_understood.

Example master_request_case :
  Forall (fun id => id_ok id /\ id <> []) [str "hd"; str "x y"]
  /\ master_uri [str "hd"; str "x y"] 1 = str "master-shd-sx%20y-v.m3u8"
  /\ master_uri [] 7 = str "master.m3u8".
Proof.
  split; [|split; reflexivity].
  apply Forall_cons; [|apply Forall_cons; [|apply Forall_nil]]; (split; [|discriminate]); unfold id_ok;
    (split; [rewrite Forall_forall; intros c H; vm_compute in H; unfold is_byte; intuition lia | vm_compute; intuition discriminate]).
Qed.

(* ----- C101: the names of segments and parts *)

(* no name and no query makes the parsers read past the end *)
Theorem names_are_read_within_bounds f uri args : fetch f uri args <> Over.
Proof. unfold fetch. destruct (decode uri) as [p|]; [|discriminate]. cbv zeta. destruct (existsb _ _); [apply core_over | discriminate]. Qed.
Print Assumptions names_are_read_within_bounds.

(* a file of an extension for media is asked for as [w] of a variant if and
   only if its name says so; nothing else is accepted *)
Theorem names_say_what_is_served f base ext can args : extension ext can ->
  (forall w id t, (exists a, core_parse f base ext args = Ok a /\ asks a w id t)
     <-> exists l, stripped ext base l /\ says_file can l w id t)
  /\ (forall a, core_parse f base ext args = Ok a -> exists w id t, asks a w id t).
Proof. apply names_iff. Qed.
Print Assumptions names_say_what_is_served.

Example ex_names : exists l, stripped (str "m4s") (str "part-12-03-sab-t-wvtt") l /\ says_file 7 l (Part 11 2) (str "ab") 4.
Proof.
  exists (str "part-12-03-sab-t"). split; [unfold stripped; destruct (list_eq_dec _ _ _); [left; reflexivity | congruence]|].
  exists (str "-t"). split; [|split; [vm_compute; intuition discriminate|]].
  - right. exists [116]. split; [reflexivity|]. split; [discriminate|]. split; [apply NoDup_cons; [intros [] | apply NoDup_nil]|]. split; [|reflexivity].
    apply Forall_cons; [right; right; split; [reflexivity | discriminate] | apply Forall_nil].
  - exists (str "12"), (str "03"). split; [split; [vm_compute; repeat (apply Forall_cons; [reflexivity|]); apply Forall_nil | split; [reflexivity | lia]]|].
    split; [split; [vm_compute; repeat (apply Forall_cons; [reflexivity|]); apply Forall_nil | split; [reflexivity | lia]]|]. split; [right; right; reflexivity | reflexivity].
Qed.

(* numbers wrap: the names seg-1 and seg-4294967297 are of one segment *)
Theorem names_are_of_one_segment_refuted f args :
  exists a, core_parse f (str "seg-1-s1") (str "ts") args = Ok a /\ core_parse f (str "seg-4294967297-s1") (str "ts") args = Ok a /\ n_seg (a_name a) = 0.
Proof. rewrite !core_ts. eexists. split; [reflexivity|]. split; reflexivity. Qed.
Print Assumptions names_are_of_one_segment_refuted.

(* a key is of one variant; a name with two is accepted all the same, when no
   media type follows *)
Theorem keys_are_of_one_variant_refuted : exists f, loc_ok f
  /\ (exists a, core_parse f (str "enc-s1-s2") (str "key") [] = Ok a /\ n_ids (a_name a) = Some (str "1-2"))
  /\ core_parse f (str "enc-s1-s2-v") (str "key") [] = Bad.
Proof. exists ex_loc. split; [exact ex_loc_ok|]. split; [eexists; split; vm_compute; reflexivity | vm_compute; reflexivity]. Qed.
Print Assumptions keys_are_of_one_variant_refuted.

(* ----- C102: range requests *)

(* a range is read as the bytes that it says, when it does not ask for more
   than all from the end; missing: those *)
Theorem ranges_are_read_partial r text len :
  range_text r text -> 0 <= len -> (forall n, r = Suffix n -> n <= len) -> range_parse text len = bytes_of r len.
Proof. apply range_is_read. Qed.
Print Assumptions ranges_are_read_partial.

(* nothing else is accepted *)
Theorem only_ranges_are_accepted text len x : range_parse text len = Some x -> exists r, range_text r text.
Proof. apply range_accepted. Qed.
Print Assumptions only_ranges_are_accepted.

Example ex_range : range_text (Between 5 99) (str "Bytes= 5 -99 ") /\ range_parse (str "Bytes= 5 -99 ") 50 = Some (5, 50)
  /\ range_parse (str "bytes=-20") 50 = Some (30, 50) /\ range_parse (str "bytes=50-") 50 = None.
Proof.
  split; [|vm_compute; repeat split].
  exists (str "Bytes="), [32]. split; [reflexivity|]. split; [repeat constructor|]. exists (str "5"), [32], [], (str "99"), [32].
  split; [repeat constructor|]. split; [constructor|]. split; [repeat constructor|]. split; [split; reflexivity|]. split; [split; reflexivity | reflexivity].
Qed.

(* the last 20 bytes of a file of 10 are its 10 bytes (RFC 7233, 2.1); the
   parser says -10 to 10 *)
Theorem long_suffix_is_the_file_refuted : range_text (Suffix 20) (str "bytes=-20")
  /\ bytes_of (Suffix 20) 10 = Some (0, 10) /\ range_parse (str "bytes=-20") 10 = Some (-10, 10).
Proof.
  split; [|vm_compute; split; reflexivity]. exists (str "bytes="), []. split; [reflexivity|]. split; [constructor|]. exists (str "20"), [].
  split; [constructor|]. split; [split; reflexivity | reflexivity].
Qed.
Print Assumptions long_suffix_is_the_file_refuted.
