(* Playlists and keys reach what they announce. *)
From Coq Require Import String Ascii ZArith List Bool Lia ZifyBool.
From Verif Require Import Bytes M3u8Model M3u8Spec M3u8Proofs M3u8Proofs7 M3u8Proofs9 UriModel UriSpec UriProofs UriProofs2 UriProofs3 UriProofs4 UriProofs5.
Import ListNotations.
Open Scope Z_scope.

(* ----- the arguments of a blocking request *)
Lemma msn_arg f v i n fl sk : atoi v = Some i -> index_arg f (str "_HLS_msn") v (n, fl, sk) = Some (set_seg (u32 i) n, Z.lor fl F_WAIT, sk).
Proof.
  intros H. unfold index_arg. change (after (str "_HLS_") (str "_HLS_msn")) with (Some [109; 115; 110]). cbn iota.
  change (eqs [109; 115; 110] (str "skip")) with false. change (eqs [109; 115; 110] (str "msn")) with true. cbn iota. rewrite H. reflexivity.
Qed.
Lemma part_arg f v i n fl sk : atoi v = Some i -> index_arg f (str "_HLS_part") v (n, fl, sk) = Some (set_part (u32 i) n, Z.lor fl F_WAIT, sk).
Proof.
  intros H. unfold index_arg. change (after (str "_HLS_") (str "_HLS_part")) with (Some [112; 97; 114; 116]). cbn iota.
  change (eqs [112; 97; 114; 116] (str "skip")) with false. change (eqs [112; 97; 114; 116] (str "msn")) with false.
  change (eqs [112; 97; 114; 116] (str "part")) with true. cbn iota. rewrite H. reflexivity.
Qed.
Definition skip_flag (f : loc) : Z := if l_skip_percent f =? 0 then 0 else F_SKIP_SEGMENTS.
Lemma skip_arg f n fl sk : 0 <= l_skip_percent f < 2 ^ 32 -> sk = 0 ->
  index_arg f (str "_HLS_skip") (str "YES") (n, fl, sk) = Some (n, Z.lor fl (skip_flag f), l_skip_percent f).
Proof.
  intros R ->. unfold index_arg. change (after (str "_HLS_") (str "_HLS_skip")) with (Some [115; 107; 105; 112]). cbn iota.
  change (eqs [115; 107; 105; 112] (str "skip")) with true. change (eqs (str "YES") (str "YES")) with true. cbn [orb]. cbn iota. unfold skip_flag.
  destruct (l_skip_percent f =? 0) eqn:E; [rewrite Z.lor_0_r; repeat f_equal; lia | rewrite u32_small by lia; reflexivity].
Qed.

Definition iname (i k : Z) : name := {| n_seg := i; n_part := k; n_ids := None; n_mask := 7; n_count := 3 |}.

Lemma dec_is_byte n : Forall is_byte (dec n).
Proof. eapply Forall_impl; [|apply dec_digits]. intros c H. unfold digit in H. unfold is_byte. lia. Qed.
Lemma escape_dec n : escape_args (dec n) = dec n.
Proof.
  unfold escape_args. pose proof (dec_digits n) as H. induction (dec n) as [|c l IH]; [reflexivity|]. inversion H; subst. cbn [flat_map].
  assert (args_plain c = true) as -> by (unfold digit in *; unfold args_plain; lia). cbn [app]. f_equal. apply IH. assumption.
Qed.

Lemma wait_parsed f i k (skip : bool) : 0 <= l_skip_percent f < 2 ^ 32 -> 0 <= i < 2 ^ 32 -> k = -1 \/ 0 <= k < 2 ^ 32 ->
  parse_args (index_arg f) (wait_args i k skip) (name0 7 3, 0, 0)
  = Some (iname i (if k =? -1 then none else k), Z.lor F_WAIT (if skip then skip_flag f else 0), if skip then l_skip_percent f else 0).
Proof.
  intros L I K.
  set (kvs := (if k =? -1 then [] else [(str "_HLS_part", dec k)]) ++ (if skip then [(str "_HLS_skip", str "YES")] else [])).
  assert (wait_args i k skip = arg (str "_HLS_msn", dec i) ++ flat_map (fun x => 38 :: arg x) kvs) as ->.
  { unfold wait_args, kvs, arg. cbn [fst snd]. rewrite escape_dec, <- !app_assoc. change (str "_HLS_msn=") with (str "_HLS_msn" ++ [61]). rewrite <- !app_assoc. do 3 f_equal.
    destruct (k =? -1), skip; cbn [flat_map app fst snd]; rewrite ?escape_dec, ?app_nil_r; try reflexivity.
    all: rewrite <- ?app_assoc; reflexivity. }
  rewrite parse_args_fold.
  2:{ apply Forall_cons.
      - split; [key_ok | apply dec_is_byte].
      - unfold kvs. apply Forall_app. split.
        + destruct (k =? -1); [apply Forall_nil|]. apply Forall_cons; [|apply Forall_nil].
          split; [key_ok | apply dec_is_byte].
        + destruct skip; [|apply Forall_nil]. apply Forall_cons; [|apply Forall_nil].
          split; [key_ok|]. cbn [snd]. apply Forall_forall. vm_compute. intuition (subst; reflexivity || discriminate). }
  cbn [fold_args]. rewrite (msn_arg f _ i) by (apply atoi_dec; exact I). rewrite u32_small by exact I. unfold kvs.
  destruct (k =? -1) eqn:E; cbn [app].
  - destruct skip; cbn [fold_args]; [rewrite skip_arg by (exact L || reflexivity)|]; reflexivity.
  - cbn [fold_args]. rewrite (part_arg f _ k) by (apply atoi_dec; lia). rewrite u32_small by lia.
    destruct skip; cbn [fold_args]; [rewrite skip_arg by (exact L || reflexivity)|]; reflexivity.
Qed.

(* ----- playlists *)
Lemma index_fetched f id m args i k fl sk : loc_ok f -> id_ok id -> 1 <= m <= 7 ->
  parse_args (index_arg f) args (name0 7 3, 0, 0) = Some (iname i k, fl, sk) ->
  (k <> none -> i <> none /\ single m) -> (has fl F_WAIT = true -> single m) ->
  fl = 0 \/ fl = F_WAIT \/ fl = F_SKIP_SEGMENTS \/ fl = Z.lor F_WAIT F_SKIP_SEGMENTS ->
  exists a, fetch f (str "index" ++ sep_selector id m ++ str ".m3u8") args = Ok a /\ a_handler a = Index
    /\ a_name a = with_types {| n_seg := i; n_part := k; n_ids := Some id; n_mask := 7; n_count := 3 |} m (mask_text m) /\ a_skip a = sk
    /\ forall w, handler_ok w Index -> waits w = has fl F_WAIT -> (0 <? skip_of w) = has fl F_SKIP_SEGMENTS -> flags_ok w (a_flags a) = true.
Proof.
  intros L I M P K W X. pose proof I as (I1 & I2 & I3 & I4).
  replace (str "index" ++ sep_selector id m ++ str ".m3u8") with ((str "index" ++ str "-s") ++ escape id ++ mask_text m ++ 46 :: str "m3u8")
    by (unfold sep_selector; rewrite <- !app_assoc; reflexivity).
  rewrite fetch_name; [| safe_lit | apply mask_safe | safe_lit | vm_compute; intuition discriminate | exact I].
  replace ((str "index" ++ str "-s") ++ id ++ mask_text m) with (str "index" ++ 45 :: 115 :: id ++ mask_text m) by (rewrite <- app_assoc; reflexivity).
  rewrite core_m3u8. unfold parse_m3u8. rewrite after_ok, P. cbn iota beta.
  assert (negb (n_part (iname i k) =? INVALID_INDEX) && (n_seg (iname i k) =? INVALID_INDEX) = false) as ->.
  { cbn [iname n_part n_seg]. change INVALID_INDEX with none. destruct (k =? none) eqn:E; [reflexivity|]. cbn [negb andb]. destruct K as [K _]; lia. }
  assert (fits m 7) as F. { destruct (Z.eq_dec m 7); [left; assumption | right; split; [lia|]].
    change 7 with (Z.ones 3). rewrite Z.land_ones by lia. apply Z.mod_small. lia. }
  assert (Z.land m 7 = m) as ML by (change 7 with (Z.ones 3); rewrite Z.land_ones by lia; apply Z.mod_small; lia).
  set (n1 := with_types {| n_seg := i; n_part := k; n_ids := Some id; n_mask := 7; n_count := 3 |} m (mask_text m)).
  assert (parse_file_name (REQUIRE_SINGLE_VARIANT + OPTIONAL_MEDIA_TYPE) (iname i k) (45 :: 115 :: id ++ mask_text m) = Ok n1) as ->.
  { apply playlist_name_iff. exists id, (mask_text m), m. split; [reflexivity|]. split; [exact I3|]. split; [|reflexivity].
    pose proof (mask_says m 7 (or_intror (or_introl eq_refl)) F) as S. rewrite ML in S. exact S. }
  cbn [bind].
  assert (n_count n1 =? 1 = true \/ (n_count n1 =? 1 = false /\ ~ single m)) as C.
  { destruct (n_count n1 =? 1) eqn:E; [left; reflexivity | right; split; [reflexivity|]]. intros [ -> | [ -> | -> ]]; vm_compute in E; discriminate. }
  destruct L as ((a & b & HB) & HP & HS).
  assert (forall y, y = true \/ (y = false /\ has fl F_WAIT = false) ->
    forall w, handler_ok w Index -> waits w = has fl F_WAIT -> (0 <? skip_of w) = has fl F_SKIP_SEGMENTS ->
    flags_ok w (Z.lor (if y then Z.lor (Z.lor (Z.lor fl (Z.lor (l_active_policy f) (F_CHECK_EXPIRY + F_TIMELINE + F_PERIODS + F_MEDIA_INFO + F_SEGMENT_INFO)))
       (if l_parts f then F_SEGMENT_PARTS else 0)) (if l_reports f then F_RENDITION_REPORTS else 0)
      else Z.lor fl (Z.lor (l_active_policy f) (F_CHECK_EXPIRY + F_TIMELINE + F_PERIODS + F_MEDIA_INFO + F_SEGMENT_INFO))) (l_base_flags f)) = true) as G.
  { intros y Hy w Hw Ww Sw. unfold flags_ok. rewrite Ww, Sw. assert (wants_media w = false) as -> by (destruct w; try reflexivity; cbn [handler_ok] in Hw; intuition discriminate).
    rewrite HB. clear - X HP. destruct (asked_seg w <? none);
    (destruct HP as [ -> | -> ]; destruct X as [ -> | [ -> | [ -> | -> ]]], y, a, b, (l_parts f), (l_reports f); vm_compute; reflexivity). }
  destruct C as [C|[C NS]]; rewrite C.
  - rewrite core_rest_ok by (right; cbn [a_name]; lia). eexists. split; [reflexivity|]. cbn [a_handler a_name a_skip a_flags]. do 3 (split; [reflexivity|]).
    apply (G true). left; reflexivity.
  - assert (has fl F_WAIT = false) as HW by (destruct (has fl F_WAIT); [exfalso; apply NS; apply W; reflexivity | reflexivity]).
    assert (has (Z.lor fl (Z.lor (l_active_policy f) (F_CHECK_EXPIRY + F_TIMELINE + F_PERIODS + F_MEDIA_INFO + F_SEGMENT_INFO))) F_WAIT = false) as ->.
    { destruct HP as [ -> | -> ]; destruct X as [ -> | [ -> | [ -> | -> ]]]; try (vm_compute in HW; discriminate HW); vm_compute; reflexivity. }
    rewrite core_rest_ok.
    2:{ left. cbn [a_name n1 with_types n_part]. destruct (Z.eq_dec k none); [assumption|]. exfalso. apply NS. apply K. assumption. }
    eexists. split; [reflexivity|]. cbn [a_handler a_name a_skip a_flags]. do 3 (split; [reflexivity|]). apply (G false). right. split; [reflexivity | exact HW].
Qed.

Theorem index_reaches f ch tl id m : loc_ok f -> Forall is_byte ch -> Forall is_byte tl -> id_ok id -> 1 <= m <= 7 ->
  reaches f ch tl (str "index" ++ sep_selector id m ++ str ".m3u8") [] (Playlist 0) [id] m.
Proof.
  intros L Hc Ht I M. destruct (index_fetched f id m [] none none 0 0 L I M eq_refl) as (a & E & Hh & Hn & Hs & Hf);
    [intros H; congruence | discriminate | left; reflexivity |].
  destruct I as (I1 & I2 & I3 & I4).
  apply (reaches_intro f ch tl _ [] a); rewrite ?Hn, ?Hh; try assumption; try reflexivity.
  - intros v H. injection H as <-. exact I1.
  - cbn [with_types n_ids]. apply ids_one. exact I3.
  - unfold index_ok; cbn [asked_seg seg_of asked_part part_of skip_of]. unfold none. lia.
  - apply Hf; reflexivity.
Qed.

Theorem wait_reaches f ch tl id m i k skip : loc_ok f -> Forall is_byte ch -> Forall is_byte tl -> id_ok id -> single m ->
  0 <= i < none -> k = -1 \/ 0 <= k < none ->
  reaches f ch tl (str "index" ++ sep_selector id m ++ str ".m3u8") (wait_args i k skip) (Wait i k (if skip then l_skip_percent f else 0)) [id] m.
Proof.
  intros L Hc Ht I M Ri Rk. pose proof L as (_ & _ & LS).
  pose proof (wait_parsed f i k skip LS ltac:(unfold none in *; lia) ltac:(unfold none in *; lia)) as P.
  assert (1 <= m <= 7) as M7 by (destruct M as [ -> | [ -> | -> ]]; lia).
  assert (exists b : bool, Z.lor F_WAIT (if skip then skip_flag f else 0) = Z.lor F_WAIT (if b then F_SKIP_SEGMENTS else 0) /\ (0 <? (if skip then l_skip_percent f else 0)) = b) as (b & Hb & Hb2).
  { destruct skip; [|exists false; split; reflexivity]. unfold skip_flag. destruct (l_skip_percent f =? 0) eqn:E; [exists false; split; [reflexivity | lia] | exists true; split; [reflexivity | lia]]. }
  rewrite Hb in P.
  destruct (index_fetched f id m _ _ _ _ _ L I M7 P) as (a & E & Hh & Hn & Hs & Hf).
  { intros _. split; [lia | exact M]. } { intros _. exact M. } { destruct b; [right; right; right; reflexivity | right; left; reflexivity]. }
  destruct I as (I1 & I2 & I3 & I4).
  apply (reaches_intro f ch tl _ _ a); rewrite ?Hn, ?Hh; try assumption; try reflexivity.
  - intros v H. injection H as <-. exact I1.
  - cbn [with_types n_ids]. apply ids_one. exact I3.
  - unfold index_ok; cbn [asked_seg seg_of asked_part part_of skip_of]. unfold none in *. destruct (k =? -1) eqn:Ek, skip; lia.
  - apply Hf; [reflexivity | destruct b; reflexivity | cbn [skip_of]; rewrite Hb2; destruct b; reflexivity].
Qed.
