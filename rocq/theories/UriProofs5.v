(* The announced names reach what they announce. *)
From Coq Require Import String Ascii ZArith List Bool Lia ZifyBool.
From Verif Require Import Bytes M3u8Model M3u8Spec M3u8Proofs M3u8Proofs7 M3u8Proofs9 UriModel UriSpec UriProofs UriProofs2 UriProofs3 UriProofs4.
Import ListNotations.
Open Scope Z_scope.

Definition cname (can cnt : Z) (id : list Z) (m i k : Z) : name :=
  with_types {| n_seg := i; n_part := k; n_ids := Some id; n_mask := can; n_count := cnt |} (Z.land m can) (mask_text m).

Lemma seg_parsed can cnt i id m : can = 3 \/ can = 7 \/ can = 4 -> fits m can -> no 45 id -> 0 <= i < none ->
  parse_file_name seg_flags (name0 can cnt) (45 :: dec (i + 1) ++ 45 :: 115 :: id ++ mask_text m) = Ok (cname can cnt id m i none).
Proof.
  intros C F N R. apply seg_name_iff. exists (dec (i + 1)), i, id, (mask_text m), (Z.land m can).
  split; [reflexivity|]. split; [apply dec_index; exact R|]. split; [exact N|]. split; [apply mask_says; assumption | reflexivity].
Qed.
Lemma part_parsed can cnt i k id m : can = 3 \/ can = 7 \/ can = 4 -> fits m can -> no 45 id -> 0 <= i < none -> 0 <= k < none ->
  parse_file_name (REQUIRE_PART_INDEX + seg_flags) (name0 can cnt) (45 :: dec (i + 1) ++ 45 :: dec (k + 1) ++ 45 :: 115 :: id ++ mask_text m) = Ok (cname can cnt id m i k).
Proof.
  intros C F N R R2. apply part_name_iff. exists (dec (i + 1)), i, (dec (k + 1)), k, id, (mask_text m), (Z.land m can).
  split; [reflexivity|]. split; [apply dec_index; exact R|]. split; [apply dec_index; exact R2|]. split; [exact N|]. split; [apply mask_says; assumption | reflexivity].
Qed.

Lemma fits_range m can : can = 3 \/ can = 7 \/ can = 4 -> fits m can -> 1 <= Z.land m can <= 7.
Proof.
  intros C [->|[R L]]; [destruct C as [ -> | [ -> | -> ]]; vm_compute; split; discriminate|]. rewrite L. lia.
Qed.

Definition seg_handler (h : handler) : Prop := h = TsSegment \/ h = Mp4Segment \/ h = VttSegment.

(* the flags of segments and parts *)
Lemma media_flags f w (x : Z) : loc_ok f -> (exists i, w = Segment i /\ i < none) \/ (exists i k, w = Part i k /\ i < none) -> x = 0 \/ x = F_SEGMENT_TIME ->
  flags_ok w (Z.lor (F_MEDIA + F_MEDIA_INFO + x) (l_base_flags f)) = true.
Proof.
  intros ((a & b & HB) & _) W X. rewrite HB.
  assert (forall g, flags_ok w g = flags_ok (Segment 0) g) as ->.
  { intros g. unfold flags_ok. destruct W as [(i & -> & R)|(i & k & -> & R)]; cbn [wants_media skip_of waits asked_seg seg_of];
      (assert (i <? none = true) as -> by lia); reflexivity. }
  destruct X as [ -> | -> ], a, b; vm_compute; reflexivity.
Qed.

Lemma ext_split ext can : container ext can -> exists e, ext = 46 :: e /\ safe e /\ no 46 e /\ (e = str "ts" /\ can = 3 \/ e = str "m4s" /\ can = 7 \/ e = str "vtt" /\ can = 4).
Proof.
  intros [[-> ->]|[[-> ->]|[-> ->]]]; [exists (str "ts") | exists (str "m4s") | exists (str "vtt")];
    (split; [reflexivity|]; split; [safe_lit|]; split; [vm_compute; intuition discriminate|]); [left | right; left | right; right]; split; reflexivity.
Qed.

Definition core_rest (f : loc) (o : out ask) : out ask :=
  bind o (fun a =>
  if negb (n_part (a_name a) =? INVALID_INDEX) && negb (n_count (a_name a) =? 1) then Bad
  else Ok {| a_handler := a_handler a; a_name := a_name a; a_skip := a_skip a;
             a_flags := Z.lor (a_flags a) (l_base_flags f) |}).
Lemma core_ts f b args : core_parse f b (str "ts") args = core_rest f (parse_ts b). Proof. reflexivity. Qed.
Lemma core_m4s f b args : core_parse f b (str "m4s") args = core_rest f (parse_m4s b). Proof. reflexivity. Qed.
Lemma core_vtt f b args : core_parse f b (str "vtt") args = core_rest f (parse_vtt b). Proof. reflexivity. Qed.
Lemma core_mp4 f b args : core_parse f b (str "mp4") args = core_rest f (parse_mp4 b). Proof. reflexivity. Qed.
Lemma core_key f b args : core_parse f b (str "key") args = core_rest f (parse_key f b). Proof. reflexivity. Qed.
Lemma core_m3u8 f b args : core_parse f b (str "m3u8") args = core_rest f (parse_m3u8 f b args). Proof. reflexivity. Qed.

Lemma seg_of_text r : seg_or_part (str "seg" ++ r) = Some (0, r).
Proof. unfold seg_or_part. rewrite after_ok. reflexivity. Qed.
Lemma part_of_text r : seg_or_part (str "part" ++ r) = Some (REQUIRE_PART_INDEX, r).
Proof. unfold seg_or_part. change (after (str "seg") (str "part" ++ r)) with (@None (list Z)). rewrite after_ok. reflexivity. Qed.

Lemma core_rest_ok f a : n_part (a_name a) = none \/ n_count (a_name a) = 1 ->
  core_rest f (Ok a) = Ok {| a_handler := a_handler a; a_name := a_name a; a_skip := a_skip a; a_flags := Z.lor (a_flags a) (l_base_flags f) |}.
Proof.
  intros H. unfold core_rest. cbn [bind]. change INVALID_INDEX with none. destruct H as [ -> | -> ]; rewrite Z.eqb_refl; [reflexivity|].
  cbn [negb]. rewrite andb_false_r. reflexivity.
Qed.

Lemma count_one can cnt id m i k : single m \/ (can = 4 /\ cnt = 1 /\ fits m 4) -> n_count (cname can cnt id m i k) = 1.
Proof.
  intros [[ -> | [ -> | -> ]]|(-> & -> & [ -> |[R L]])]; try reflexivity.
  assert (m = 4) as ->; [|reflexivity]. assert (m = 1 \/ m = 2 \/ m = 3 \/ m = 4 \/ m = 5 \/ m = 6) as M by lia.
  destruct M as [ -> | [ -> | [ -> | [ -> | [ -> | -> ]]]]]; try reflexivity; exfalso; vm_compute in L; discriminate.
Qed.

Lemma seg_fetched f ext can i id m args : loc_ok f -> container ext can -> id_ok id -> id <> str "tpp" -> fits m can -> 0 <= i < none ->
  exists a cnt, fetch f (str "seg-" ++ dec (i + 1) ++ sep_selector id m ++ ext) args = Ok a /\ seg_handler (a_handler a)
    /\ a_name a = cname can cnt id m i none /\ a_skip a = 0 /\ flags_ok (Segment i) (a_flags a) = true.
Proof.
  intros L C I T F R. destruct (ext_split _ _ C) as (e & -> & Se & Ne & Ce). pose proof I as (I1 & I2 & I3 & I4).
  assert (can = 3 \/ can = 7 \/ can = 4) as Cc by (destruct Ce as [[_ ->]|[[_ ->]|[_ ->]]]; auto).
  replace (str "seg-" ++ dec (i + 1) ++ sep_selector id m ++ 46 :: e) with ((str "seg-" ++ dec (i + 1) ++ str "-s") ++ escape id ++ mask_text m ++ 46 :: e)
    by (unfold sep_selector; rewrite <- !app_assoc; reflexivity).
  rewrite fetch_name; [| apply safe_app; [safe_lit | apply safe_app; [apply dec_safe | safe_lit]] | apply mask_safe | exact Se | exact Ne | exact I].
  replace ((str "seg-" ++ dec (i + 1) ++ str "-s") ++ id ++ mask_text m) with (str "seg" ++ (45 :: dec (i + 1)) ++ 45 :: 115 :: id ++ mask_text m)
    by (rewrite <- !app_assoc; reflexivity).
  assert (forall h cnt x, seg_handler h -> x = 0 \/ x = F_SEGMENT_TIME ->
    exists a cnt0, core_rest f (Ok {| a_handler := h; a_name := cname can cnt id m i none; a_skip := 0; a_flags := F_MEDIA + F_MEDIA_INFO + x |}) = Ok a
      /\ seg_handler (a_handler a) /\ a_name a = cname can cnt0 id m i none /\ a_skip a = 0 /\ flags_ok (Segment i) (a_flags a) = true) as G.
  { intros h cnt x Hh Hx. rewrite core_rest_ok by (left; reflexivity). eexists. exists cnt. split; [reflexivity|]. cbn [a_handler a_name a_skip a_flags].
    split; [exact Hh|]. split; [reflexivity|]. split; [reflexivity|]. apply media_flags; [exact L | left; exists i; split; [reflexivity | lia] | exact Hx]. }
  destruct Ce as [[-> ->]|[[-> ->]|[-> ->]]].
  - rewrite core_ts. unfold parse_ts. rewrite seg_of_text. change (0 + seg_flags) with seg_flags. cbn [app]. rewrite seg_parsed by assumption. cbn [bind].
    apply (G TsSegment 2 0); [left; reflexivity | left; reflexivity].
  - rewrite core_m4s. unfold parse_m4s. rewrite seg_of_text. change (0 + seg_flags) with seg_flags. rewrite fmp4_plain by assumption. cbn [app]. rewrite seg_parsed by assumption. cbn [bind].
    apply (G Mp4Segment 3); [right; left; reflexivity|]. destruct (has _ 4); [right | left]; reflexivity.
  - rewrite core_vtt. unfold parse_vtt. rewrite seg_of_text. change (0 + seg_flags) with seg_flags. cbn [app]. rewrite seg_parsed by assumption. cbn [bind].
    apply (G VttSegment 1 F_SEGMENT_TIME); [right; right; reflexivity | right; reflexivity].
Qed.

Lemma part_fetched f ext can i k id m args : loc_ok f -> container ext can -> id_ok id -> id <> str "tpp" -> fits m can ->
  single m \/ can = 4 -> 0 <= i < none -> 0 <= k < none ->
  exists a cnt, fetch f (str "part-" ++ dec (i + 1) ++ str "-" ++ dec (k + 1) ++ sep_selector id m ++ ext) args = Ok a /\ seg_handler (a_handler a)
    /\ a_name a = cname can cnt id m i k /\ a_skip a = 0 /\ flags_ok (Part i k) (a_flags a) = true.
Proof.
  intros L C I T F S R R2. destruct (ext_split _ _ C) as (e & -> & Se & Ne & Ce). pose proof I as (I1 & I2 & I3 & I4).
  assert (can = 3 \/ can = 7 \/ can = 4) as Cc by (destruct Ce as [[_ ->]|[[_ ->]|[_ ->]]]; auto).
  replace (str "part-" ++ dec (i + 1) ++ str "-" ++ dec (k + 1) ++ sep_selector id m ++ 46 :: e)
    with ((str "part-" ++ dec (i + 1) ++ str "-" ++ dec (k + 1) ++ str "-s") ++ escape id ++ mask_text m ++ 46 :: e)
    by (unfold sep_selector; rewrite <- !app_assoc; reflexivity).
  rewrite fetch_name; [| apply safe_app; [safe_lit | apply safe_app; [apply dec_safe | apply safe_app; [safe_lit | apply safe_app; [apply dec_safe | safe_lit]]]] | apply mask_safe | exact Se | exact Ne | exact I].
  replace ((str "part-" ++ dec (i + 1) ++ str "-" ++ dec (k + 1) ++ str "-s") ++ id ++ mask_text m)
    with (str "part" ++ (45 :: dec (i + 1) ++ 45 :: dec (k + 1)) ++ 45 :: 115 :: id ++ mask_text m)
    by (cbn [app]; rewrite <- !app_assoc; reflexivity).
  assert (forall h cnt x, seg_handler h -> (can = 4 -> cnt = 1) -> x = 0 \/ x = F_SEGMENT_TIME ->
    exists a cnt0, core_rest f (Ok {| a_handler := h; a_name := cname can cnt id m i k; a_skip := 0; a_flags := F_MEDIA + F_MEDIA_INFO + x |}) = Ok a
      /\ seg_handler (a_handler a) /\ a_name a = cname can cnt0 id m i k /\ a_skip a = 0 /\ flags_ok (Part i k) (a_flags a) = true) as G.
  { intros h cnt x Hh Hc Hx. rewrite core_rest_ok.
    2:{ right. apply count_one. destruct S as [S|S]; [left; exact S | right]. split; [exact S|]. split; [exact (Hc S) | rewrite <- S; exact F]. }
    eexists. exists cnt. split; [reflexivity|]. cbn [a_handler a_name a_skip a_flags].
    split; [exact Hh|]. split; [reflexivity|]. split; [reflexivity|]. apply media_flags; [exact L | right; exists i, k; split; [reflexivity | lia] | exact Hx]. }
  destruct Ce as [[-> ->]|[[-> ->]|[-> ->]]].
  - rewrite core_ts. unfold parse_ts. rewrite part_of_text. cbn [app]. rewrite <- app_assoc. cbn [app]. rewrite part_parsed by assumption. cbn [bind].
    apply (G TsSegment 2 0); [left; reflexivity | discriminate | left; reflexivity].
  - rewrite core_m4s. unfold parse_m4s. rewrite part_of_text. rewrite fmp4_plain by assumption. cbn [app]. rewrite <- app_assoc. cbn [app]. rewrite part_parsed by assumption. cbn [bind].
    apply (G Mp4Segment 3); [right; left; reflexivity | discriminate |]. destruct (has _ 4); [right | left]; reflexivity.
  - rewrite core_vtt. unfold parse_vtt. rewrite part_of_text. cbn [app]. rewrite <- app_assoc. cbn [app]. rewrite part_parsed by assumption. cbn [bind].
    apply (G VttSegment 1 F_SEGMENT_TIME); [right; right; reflexivity | reflexivity | right; reflexivity].
Qed.

Lemma init_fetched f i id m args : loc_ok f -> id_ok id -> id <> str "tpp" -> fits m 7 -> 0 <= i < none ->
  exists a cnt, fetch f (str "init-" ++ dec (i + 1) ++ sep_selector id m ++ str ".mp4") args = Ok a /\ a_handler a = InitSegment
    /\ a_name a = cname 7 cnt id m i none /\ a_skip a = 0 /\ flags_ok (Init i) (a_flags a) = true.
Proof.
  intros L I T F R. pose proof I as (I1 & I2 & I3 & I4).
  replace (str "init-" ++ dec (i + 1) ++ sep_selector id m ++ str ".mp4") with ((str "init-" ++ dec (i + 1) ++ str "-s") ++ escape id ++ mask_text m ++ 46 :: str "mp4")
    by (unfold sep_selector; rewrite <- !app_assoc; reflexivity).
  rewrite fetch_name; [| apply safe_app; [safe_lit | apply safe_app; [apply dec_safe | safe_lit]] | apply mask_safe | safe_lit | vm_compute; intuition discriminate | exact I].
  replace ((str "init-" ++ dec (i + 1) ++ str "-s") ++ id ++ mask_text m) with (str "init" ++ (45 :: dec (i + 1)) ++ 45 :: 115 :: id ++ mask_text m)
    by (rewrite <- !app_assoc; reflexivity).
  rewrite core_mp4. unfold parse_mp4. rewrite after_ok. rewrite fmp4_plain by assumption. cbn [app].
  rewrite seg_parsed; [| right; left; reflexivity | assumption | assumption | assumption]. cbn [bind]. rewrite core_rest_ok by (left; reflexivity).
  eexists. exists 3. split; [reflexivity|]. cbn [a_handler a_name a_skip a_flags]. do 3 (split; [reflexivity|]).
  destruct L as ((a & b & ->) & _). unfold flags_ok; cbn [wants_media skip_of waits asked_seg seg_of]. assert (i <? none = true) as -> by lia. destruct a, b; vm_compute; reflexivity.
Qed.

Lemma cname_ids can cnt id m i k : id_ok id -> bytes_opt (n_ids (cname can cnt id m i k))
  /\ match n_ids (cname can cnt id m i k) with Some t => ids_loop [] t | None => [] end = [id].
Proof.
  intros (I1 & I2 & I3 & I4). split; [intros v E; injection E as <-; exact I1|]. cbn [cname with_types n_ids]. apply ids_one. exact I3.
Qed.

Theorem seg_reaches f ext can ch tl i id m args : loc_ok f -> container ext can -> Forall is_byte ch -> Forall is_byte tl ->
  id_ok id -> id <> str "tpp" -> fits m can -> 0 <= i < none ->
  reaches f ch tl (str "seg-" ++ dec (i + 1) ++ sep_selector id m ++ ext) args (Segment i) [id] (Z.land m can).
Proof.
  intros L C Hc Ht I T F R. destruct (seg_fetched f ext can i id m args L C I T F R) as (a & cnt & E & Hh & Hn & Hs & Hf).
  destruct (cname_ids can cnt id m i none I) as [B1 B2]. assert (can = 3 \/ can = 7 \/ can = 4) as Cc by (destruct C as [[_ ->]|[[_ ->]|[_ ->]]]; auto).
  apply (reaches_intro f ch tl _ args a); rewrite ?Hn; try assumption; try reflexivity; [apply fits_range; assumption|].
  unfold index_ok; cbn [asked_seg seg_of asked_part part_of skip_of]. unfold none in *. lia.
Qed.
Theorem part_reaches f ext can ch tl i k id m args : loc_ok f -> container ext can -> Forall is_byte ch -> Forall is_byte tl ->
  id_ok id -> id <> str "tpp" -> fits m can -> single m \/ can = 4 -> 0 <= i < none -> 0 <= k < none ->
  reaches f ch tl (str "part-" ++ dec (i + 1) ++ str "-" ++ dec (k + 1) ++ sep_selector id m ++ ext) args (Part i k) [id] (Z.land m can).
Proof.
  intros L C Hc Ht I T F S R R2. destruct (part_fetched f ext can i k id m args L C I T F S R R2) as (a & cnt & E & Hh & Hn & Hs & Hf).
  destruct (cname_ids can cnt id m i k I) as [B1 B2]. assert (can = 3 \/ can = 7 \/ can = 4) as Cc by (destruct C as [[_ ->]|[[_ ->]|[_ ->]]]; auto).
  apply (reaches_intro f ch tl _ args a); rewrite ?Hn; try assumption; try reflexivity; [apply fits_range; assumption|].
  unfold index_ok; cbn [asked_seg seg_of asked_part part_of skip_of]. unfold none in *. lia.
Qed.
Theorem init_reaches f ch tl i id m args : loc_ok f -> Forall is_byte ch -> Forall is_byte tl ->
  id_ok id -> id <> str "tpp" -> fits m 7 -> 0 <= i < none ->
  reaches f ch tl (str "init-" ++ dec (i + 1) ++ sep_selector id m ++ str ".mp4") args (Init i) [id] m.
Proof.
  intros L Hc Ht I T F R. destruct (init_fetched f i id m args L I T F R) as (a & cnt & E & Hh & Hn & Hs & Hf).
  destruct (cname_ids 7 cnt id m i none I) as [B1 B2].
  assert (Z.land m 7 = m) as M by (destruct F as [ -> |[_ F]]; [reflexivity | exact F]).
  apply (reaches_intro f ch tl _ args a); rewrite ?Hn; try assumption; try reflexivity.
  - rewrite <- M at 1 2. apply fits_range; [right; left; reflexivity | assumption].
  - unfold index_ok; cbn [asked_seg seg_of asked_part part_of skip_of]. unfold none in *. lia.
Qed.
