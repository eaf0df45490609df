(* Keys; all the uris of a playlist. *)
From Coq Require Import String Ascii ZArith List Bool Lia ZifyBool.
From Verif Require Import Bytes M3u8Model M3u8Spec M3u8Proofs M3u8Proofs7 M3u8Proofs9 M3u8Properties UriModel UriSpec UriProofs UriProofs2 UriProofs3 UriProofs4 UriProofs5 UriProofs6.
Import ListNotations.
Open Scope Z_scope.

(* ----- keys *)
Definition key_flags : Z := OPTIONAL_SINGLE_VARIANT + OPTIONAL_MEDIA_TYPE.
Lemma key_fetched f id scope ty args : loc_ok f -> l_serve_key f = true -> id_ok id -> 0 <= scope <= 3 -> ty = 0 \/ ty = 1 ->
  exists a, fetch f (enc_uri scope id (Z.shiftl 1 ty)) args = Ok a /\ a_handler a = EncKey
    /\ n_seg (a_name a) = none /\ n_part (a_name a) = none /\ a_skip a = 0
    /\ n_ids (a_name a) = (if 2 <=? scope then Some id else None)
    /\ n_mask (a_name a) = (if (scope =? 1) || (scope =? 3) then Z.shiftl 1 ty else 3)
    /\ flags_ok KeyFile (a_flags a) = true.
Proof.
  intros L K I R T. pose proof I as (I1 & I2 & I3 & I4). destruct L as ((a & b & HB) & _).
  assert (flags_ok KeyFile (Z.lor 0 (l_base_flags f)) = true) as FO by (rewrite HB; destruct a, b; vm_compute; reflexivity).
  assert (scope = 0 \/ scope = 1 \/ scope = 2 \/ scope = 3) as SC by lia.
  set (mt := Z.shiftl 1 ty) in *.
  set (m := if (scope =? 1) || (scope =? 3) then mt else 7).
  assert (enc_uri scope id mt = if 2 <=? scope then (str "enc" ++ str "-s") ++ escape id ++ mask_text m ++ 46 :: str "key" else (str "enc" ++ mask_text m) ++ 46 :: str "key") as ->.
  { unfold enc_uri, sep_selector, m. destruct SC as [ -> | [ -> | [ -> | -> ]]]; cbn [Z.eqb Z.leb Z.compare orb Pos.eqb Pos.compare Pos.compare_cont]; rewrite <- ?app_assoc; reflexivity. }
  assert (fetch f (if 2 <=? scope then (str "enc" ++ str "-s") ++ escape id ++ mask_text m ++ 46 :: str "key" else (str "enc" ++ mask_text m) ++ 46 :: str "key") args
    = core_parse f (str "enc" ++ (if 2 <=? scope then 45 :: 115 :: id else []) ++ mask_text m) (str "key") args) as ->.
  { destruct (2 <=? scope).
    - rewrite fetch_name; [| safe_lit | apply mask_safe | safe_lit | vm_compute; intuition discriminate | exact I]. rewrite <- !app_assoc. reflexivity.
    - rewrite fetch_plain; [reflexivity | apply safe_app; [safe_lit | apply mask_safe] | safe_lit | vm_compute; intuition discriminate]. }
  rewrite core_key. unfold parse_key. rewrite after_ok, K. fold key_flags.
  assert (forall n, n_part n = none -> exists a0, core_rest f (bind (Ok n) (fun n => Ok {| a_handler := EncKey; a_name := n; a_skip := 0; a_flags := 0 |})) = Ok a0
    /\ a_handler a0 = EncKey /\ a_name a0 = n /\ a_skip a0 = 0 /\ flags_ok KeyFile (a_flags a0) = true) as G.
  { intros n Hn. cbn [bind]. rewrite core_rest_ok by (left; exact Hn). eexists. split; [reflexivity|]. cbn [a_handler a_name a_skip a_flags]. repeat (split; [reflexivity|]). exact FO. }
  assert (exists n, parse_file_name key_flags (name0 3 2) ((if 2 <=? scope then 45 :: 115 :: id else []) ++ mask_text m) = Ok n
    /\ n_seg n = none /\ n_part n = none /\ n_ids n = (if 2 <=? scope then Some id else None) /\ n_mask n = (if (scope =? 1) || (scope =? 3) then mt else 3)) as (n & P & N1 & N2 & N3 & N4).
  { unfold parse_file_name. change (has key_flags REQUIRE_INDEX) with false. change (has key_flags REQUIRE_PART_INDEX) with false. change (has key_flags REQUIRE_SINGLE_VARIANT) with false.
    cbn [bind fst snd].
    destruct SC as [ -> | [ -> | [ -> | -> ]]]; unfold m, mt; clear m mt;
      cbn [Z.eqb Z.leb Z.compare orb Pos.eqb Pos.compare Pos.compare_cont].
    - eexists. split; [reflexivity|]. repeat split.
    - destruct T as [ -> | -> ]; eexists; (split; [reflexivity|]; repeat split).
    - change (mask_text 7) with (@nil Z). rewrite app_nil_r. unfold parse_options. rewrite zlen_lt2. cbn [Z.eqb Pos.eqb negb orb].
      change (has key_flags (Z.lor OPTIONAL_VARIANTS OPTIONAL_SINGLE_VARIANT)) with true. cbn [andb]. cbn [length variants tl].
      pose proof (extract_ok id [] I3 (or_introl eq_refl)) as X. rewrite app_nil_r in X. rewrite X. cbn [bind fst snd]. eexists. split; [reflexivity|]. repeat split.
    - assert (exists c, (c = 118 \/ c = 97) /\ mask_text (Z.shiftl 1 ty) = [45; c] /\ flag_of c = Z.shiftl 1 ty) as (c & Hc & Hm & Hfl).
      { destruct T as [ -> | -> ]; [exists 118 | exists 97]; (split; [auto|]; split; reflexivity). }
      rewrite Hm. unfold parse_options. cbn [app]. rewrite zlen_lt2. cbn [Z.eqb Pos.eqb negb orb].
      change (has key_flags (Z.lor OPTIONAL_VARIANTS OPTIONAL_SINGLE_VARIANT)) with true. cbn [andb]. cbn [length variants tl].
      rewrite (extract_ok id [45; c] I3) by (right; eexists; reflexivity). rewrite zlen_lt2. cbn [Z.eqb Pos.eqb negb orb].
      assert (c =? 115 = false) as -> by lia. cbn [bind fst snd].
      assert (existsb (fun x => x =? 45) ([] ++ id) = false) as ->.
      { cbn [app]. destruct (existsb (fun x => x =? 45) id) eqn:E; [|reflexivity]. apply existsb_exists in E. destruct E as (x & J & E). exfalso. apply I3. assert (x = 45) by lia. subst. exact J. }
      rewrite andb_false_r. cbn [app]. destruct Hc as [ -> | -> ]; (eexists; split; [reflexivity|]); cbn [n_seg n_part n_ids n_mask set_ids name0 fst]; repeat (split; [reflexivity|]); rewrite <- Hfl; reflexivity. }
  rewrite P. destruct (G n N2) as (a0 & G1 & G2 & G3 & G4 & G5). exists a0. rewrite G3. repeat (split; [assumption|]). assumption.
Qed.

Theorem key_reaches f ch tl id scope ty args : loc_ok f -> l_serve_key f = true -> Forall is_byte ch -> Forall is_byte tl -> id_ok id -> 0 <= scope <= 3 -> ty = 0 \/ ty = 1 ->
  reaches f ch tl (enc_uri scope id (Z.shiftl 1 ty)) args KeyFile (if 2 <=? scope then [id] else []) (if (scope =? 1) || (scope =? 3) then Z.shiftl 1 ty else 3).
Proof.
  intros L K Hc Ht I R T. destruct (key_fetched f id scope ty args L K I R T) as (a & E & Hh & N1 & N2 & Hs & N3 & N4 & Hf). destruct I as (I1 & I2 & I3 & I4).
  apply (reaches_intro f ch tl _ args a); rewrite ?Hh, ?N1, ?N2, ?N3, ?N4; try assumption; try reflexivity.
  - intros v H. destruct (2 <=? scope); [injection H as <-; exact I1 | discriminate].
  - destruct (2 <=? scope); [apply ids_one; exact I3 | reflexivity].
  - destruct ((scope =? 1) || (scope =? 3)); [destruct T as [ -> | -> ]; vm_compute; split; discriminate | lia].
  - unfold index_ok; cbn [asked_seg seg_of asked_part part_of skip_of]. unfold none. lia.
Qed.

(* ----- all the uris of a playlist *)
Lemma place_range ds : forall i t x, In x (place i t ds) -> i <= fst (fst x) < i + zlen ds.
Proof.
  induction ds as [|d ds IH]; intros i t x H; [destruct H|]. cbn [place] in H. rewrite M3u8Proofs9.zlen_cons. destruct H as [H|H].
  - subst x. cbn [fst]. pose proof (zlen_nonneg ds). lia.
  - apply IH in H. lia.
Qed.

Lemma durations_app p l1 l2 : p_elts p = l1 ++ l2 ->
  durations p = flat_map (fun e => repeat (snd e) (Z.to_nat (fst e))) (filter (fun e => 0 <? snd e) l1) ++ flat_map (fun e => repeat (snd e) (Z.to_nat (fst e))) (filter (fun e => 0 <? snd e) l2).
Proof. intros H. unfold durations. rewrite H, filter_app, flat_map_app. reflexivity. Qed.
Lemma done_count done : Forall (fun e => 0 < fst e /\ 0 < snd e < 2 ^ 32) done ->
  zlen (flat_map (fun e => repeat (snd e) (Z.to_nat (fst e))) (filter (fun e => 0 <? snd e) done)) = fold_right (fun e a => fst e + a) 0 done
  /\ existsb (fun e => snd e =? 0) done = false.
Proof.
  induction done as [|e done IH]; intros H; [split; reflexivity|]. inversion H as [|? ? [A B] H']; subst. destruct (IH H') as [C D].
  cbn [filter fold_right existsb]. assert (0 <? snd e = true) as -> by lia. assert (snd e =? 0 = false) as -> by lia. split; [|exact D].
  cbn [flat_map]. rewrite zlen_app, C. f_equal. unfold zlen. rewrite repeat_length. lia.
Qed.
Lemma elts_count lst p : elts_ok lst (p_elts p) ->
  zlen (durations p) + (if existsb (fun e => snd e =? 0) (p_elts p) then 1 else 0) = p_count p.
Proof.
  intros (done & D & [[E _]|[_ E]]); destruct (done_count done D) as [A B].
  - unfold durations, p_count. rewrite E, A, B. lia.
  - rewrite (durations_app p done [(1, 0)] E). cbn [filter flat_map snd fst]. change (0 <? 0) with false. cbn [flat_map]. rewrite app_nil_r, A.
    unfold p_count. rewrite E, existsb_app, B. cbn [existsb snd orb]. change (0 =? 0) with true. cbn [orb]. rewrite fold_right_app. cbn [fold_right fst].
    clear. induction done as [|e l IH]; cbn [fold_right]; lia.
Qed.

Lemma periods_range ps : forall from p, 0 <= from -> periods_ok from ps -> In p ps -> 0 <= p_index p /\ p_index p + p_count p <= none /\ zlen (durations p) + (if existsb (fun e => snd e =? 0) (p_elts p) then 1 else 0) = p_count p.
Proof.
  induction ps as [|q ps IH]; intros from p F H I; [destruct I|]. cbn [periods_ok] in H. destruct H as (H1 & H2 & H3 & H4 & H5).
  pose proof (elts_count _ _ H3) as C. destruct I as [<-|I].
  - split; [lia|]. split; [exact H4 | exact C].
  - pose proof (zlen_nonneg (durations q)). apply (IH (p_index q + p_count q)); [destruct (existsb _ _); lia | exact H5 | exact I].
Qed.

Lemma segment_range ps p x : periods_ok 0 ps -> In p ps -> In x (segments p) -> 0 <= fst (fst x) < none.
Proof.
  intros H I X. destruct (periods_range ps 0 p (Z.le_refl 0) H I) as (A & B & C). apply place_range in X.
  destruct (existsb _ _); lia.
Qed.
Lemma pending_range ps i t : periods_ok 0 ps -> pending_of ps = Some (i, t) -> 0 <= i < none.
Proof.
  intros H P. unfold pending_of in P. destruct ps as [|q ps]; [discriminate|]. cbn iota in P.
  assert (In (last (q :: ps) {| p_time := 0; p_index := 0; p_elts := [] |}) (q :: ps)) as I.
  { assert (forall (l : list period) a d, In (last (a :: l) d) (a :: l)) as G.
    { induction l as [|b l IH]; intros a d; [left; reflexivity|]. change (last (a :: b :: l) d) with (last (b :: l) d). right. apply IH. }
    apply G. }
  remember (last (q :: ps) {| p_time := 0; p_index := 0; p_elts := [] |}) as p eqn:E. clear E.
  destruct (periods_range _ 0 p (Z.le_refl 0) H I) as (A & B & C). destruct (existsb _ (p_elts p)); [|discriminate]. injection P as <- _.
  pose proof (zlen_nonneg (durations p)). lia.
Qed.
Lemma listed_range ps i : periods_ok 0 ps -> In i (listed ps) -> 0 <= i < none.
Proof.
  intros H I. unfold listed in I. apply in_app_or in I. destruct I as [I|I].
  - apply in_flat_map in I. destruct I as (p & Ip & I). apply in_map_iff in I. destruct I as (x & <- & I). apply (segment_range ps p); assumption.
  - destruct (pending_of ps) as [[j t]|] eqn:P; [|destruct I]. destruct I as [<-|[]]. apply (pending_range ps j t); assumption.
Qed.

Lemma parts_nth f c i l : forall k t n pt, nth_error (parts_from f c i k t l) n = Some pt -> pt_uri pt = part_uri f c i (k + Z.of_nat n) /\ (n < length l)%nat.
Proof.
  induction l as [|d l IH]; intros k t n pt H; [destruct n; discriminate|]. cbn [parts_from] in H. destruct (d =? PRELOAD_HINT); [destruct n; discriminate|].
  destruct n as [|n]; cbn [nth_error] in H.
  - injection H as <-. cbn [pt_uri length]. split; [f_equal; lia | lia].
  - apply IH in H. destruct H as [-> L]. cbn [length]. split; [f_equal; lia | lia].
Qed.
Lemma hint_found f c l : forall h u, hint_after f c h l = Some u -> h = Some u \/ exists i, In i l /\ hint_in f c i = Some u.
Proof.
  unfold hint_after. induction l as [|i l IH]; intros h u H; [left; exact H|]. cbn [fold_left] in H. apply IH in H. destruct H as [H|(j & I & H)].
  - destruct (hint_in f c i) eqn:E; [right; exists i; split; [left; reflexivity | rewrite E; exact H] | left; exact H].
  - right. exists j. split; [right; exact I | exact H].
Qed.
Lemma hint_uri f c i u : hint_in f c i = Some u -> u = part_uri f c i (zlen (parts_at i c)) /\ 0 < zlen (parts_at i c).
Proof.
  unfold hint_in. destruct (rev (parts_at i c)) as [|d r] eqn:E; [discriminate|]. destruct (d =? PRELOAD_HINT); [|discriminate]. intros H. injection H as <-.
  assert (zlen (parts_at i c) = zlen r + 1) as L. { unfold zlen. rewrite <- rev_length, E. cbn [length]. lia. }
  rewrite L. pose proof (zlen_nonneg r). split; [reflexivity | lia].
Qed.
