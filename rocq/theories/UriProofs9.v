(* The master playlist of some variants. *)
From Coq Require Import String Ascii ZArith List Bool Lia ZifyBool.
From Verif Require Import Bytes M3u8Model M3u8Spec M3u8Proofs M3u8Proofs7 M3u8Proofs9 UriModel UriSpec UriProofs UriProofs2 UriProofs3 UriProofs4 UriProofs5.
Import ListNotations.
Open Scope Z_scope.

Fixpoint join (ids : list (list Z)) : list Z :=
  match ids with [] => [] | [a] => a | a :: r => a ++ 45 :: join r end.

Lemma ids_go a : forall cur r, no 45 a -> ids_loop cur (a ++ r) = ids_loop (cur ++ a) r.
Proof.
  induction a as [|c a IH]; intros cur r N; [rewrite app_nil_r; reflexivity|]. cbn [app ids_loop]. destruct (c =? 45) eqn:E; [exfalso; apply N; left; lia|].
  rewrite IH by (intros H; apply N; right; exact H). rewrite <- app_assoc. reflexivity.
Qed.
Lemma ids_split ids : ids <> [] -> Forall (no 45) ids -> ids_loop [] (join ids) = ids.
Proof.
  induction ids as [|a ids IH]; intros NE F; [congruence|]. inversion F as [|? ? N F']; subst. destruct ids as [|b ids].
  - cbn [join]. rewrite <- (app_nil_r a) at 1. rewrite ids_go by exact N. reflexivity.
  - change (join (a :: b :: ids)) with (a ++ 45 :: join (b :: ids)). rewrite ids_go by exact N. cbn [ids_loop app]. change (45 =? 45) with true. cbn iota. f_equal. apply IH; [discriminate | exact F'].
Qed.

Definition names_of (ids : list (list Z)) : list Z := flat_map (fun id => 45 :: 115 :: id) ids.
(* the loop over variants; [pre] are the ids so far *)
Lemma variants_ok ids : forall fuel pre id sfx, (length ids < fuel)%nat -> Forall (fun i => no 45 i /\ i <> []) (id :: ids) ->
  (sfx = [] \/ exists c r, sfx = 45 :: c :: r /\ c <> 115) -> (pre = [] \/ exists x l, pre = x :: l) ->
  variants fuel pre (115 :: id ++ names_of ids ++ sfx) =
  Ok ((match pre with [] => [] | _ => pre ++ [45] end) ++ join (id :: ids), match sfx with [] => None | _ :: r => Some r end).
Proof.
  induction ids as [|b ids IH]; intros fuel pre id sfx L F S P; (destruct fuel as [|fuel]; [lia|]); inversion F as [|? ? [N NE] F']; subst.
  - cbn [names_of flat_map app variants tl]. destruct S as [ -> | (c & r & -> & C)].
    + rewrite (extract_ok id []) by (exact N || (left; reflexivity)). reflexivity.
    + rewrite (extract_ok id (45 :: c :: r)) by (exact N || (right; eexists; reflexivity)). rewrite zlen_lt2. cbn [Z.eqb Pos.eqb negb orb].
      assert (c =? 115 = false) as -> by lia. reflexivity.
  - cbn [names_of flat_map app variants tl]. fold (names_of ids).
    rewrite (extract_ok id _) by (exact N || (right; eexists; reflexivity)). rewrite zlen_lt2. cbn [Z.eqb Pos.eqb negb orb]. rewrite <- app_assoc.
    rewrite IH; [| cbn [length] in L; lia | exact F' | exact S |].
    + f_equal. f_equal. change (join (id :: b :: ids)) with (id ++ 45 :: join (b :: ids)).
      assert (exists x l, (match pre with [] => [] | _ => pre ++ [45] end) ++ id = x :: l) as (x & l & E).
      { destruct P as [ -> | (x & l & -> )]; [destruct id as [|x l]; [congruence | exists x, l; reflexivity] | exists x; eexists; reflexivity]. }
      rewrite E. rewrite <- E. rewrite <- !app_assoc. reflexivity.
    + right. destruct P as [ -> | (x & l & -> )]; [destruct id as [|x l]; [congruence | exists x, l; reflexivity] | exists x; eexists; reflexivity].
Qed.

Lemma decode_ids ids : forall rest r, Forall id_ok ids -> decode rest = Some r ->
  decode (flat_map (fun id => str "-s" ++ escape id) ids ++ rest) = Some (names_of ids ++ r).
Proof.
  induction ids as [|id ids IH]; intros rest r F D; [exact D|]. inversion F as [|? ? (I1 & I2 & I3 & I4) F']; subst. cbn [flat_map names_of]. fold (names_of ids). rewrite <- !app_assoc.
  change (45 :: 115 :: id) with (str "-s" ++ id). rewrite <- !app_assoc. apply decode_plain; [vm_compute; intuition discriminate|]. apply decode_escape; [exact I1 | exact I2|]. apply IH; assumption.
Qed.

Lemma mask_shape m : 1 <= m <= 7 -> mask_text m = [] \/ exists c r, mask_text m = 45 :: c :: r /\ c <> 115.
Proof.
  intros M. assert (m = 1 \/ m = 2 \/ m = 3 \/ m = 4 \/ m = 5 \/ m = 6 \/ m = 7) as E by lia.
  destruct E as [ -> | [ -> | [ -> | [ -> | [ -> | [ -> | -> ]]]]]]; try (right; eexists; eexists; split; [reflexivity | discriminate]). left. reflexivity.
Qed.
Lemma len_names ids : (length ids <= length (names_of ids))%nat.
Proof. induction ids as [|a ids IH]; [apply le_n|]. cbn [names_of flat_map length app]. fold (names_of ids). rewrite app_length. lia. Qed.

Lemma master_fetched f ids m args : loc_ok f -> Forall (fun i => id_ok i /\ i <> []) ids -> 1 <= m <= 7 ->
  exists a, fetch f (master_uri ids m) args = Ok a /\ a_handler a = Master
    /\ n_seg (a_name a) = none /\ n_part (a_name a) = none /\ a_skip a = 0
    /\ n_ids (a_name a) = match ids with [] => None | _ => Some (join ids) end /\ n_mask (a_name a) = m
    /\ flags_ok MasterList (a_flags a) = true.
Proof.
  intros ((a & b & HB) & HP & HS) F M. unfold master_uri, fetch.
  assert (Forall id_ok ids) as FI by (eapply Forall_impl; [|exact F]; intros i H; apply H).
  assert (decode (str "master" ++ flat_map (fun id => str "-s" ++ escape id) ids ++ mask_text m ++ str ".m3u8") = Some (str "master" ++ names_of ids ++ mask_text m ++ str ".m3u8")) as ->.
  { apply decode_plain; [vm_compute; intuition discriminate|]. apply decode_ids; [exact FI|]. apply decode_plain; [apply mask_safe | reflexivity]. }
  assert (no 47 (str "master" ++ names_of ids ++ mask_text m ++ str ".m3u8")) as NS.
  { intros H. apply in_app_or in H. destruct H as [H|H]; [vm_compute in H; intuition discriminate|]. apply in_app_or in H. destruct H as [H|H].
    - unfold names_of in H. apply in_flat_map in H. destruct H as (id & Hi & H). rewrite Forall_forall in FI. destruct (FI id Hi) as (_ & _ & _ & N). destruct H as [H|[H|H]]; [discriminate | discriminate | exact (N H)].
    - apply in_app_or in H. destruct H as [H|H]; [exact (proj2 (mask_safe m) H) | vm_compute in H; intuition discriminate]. }
  rewrite (after_last_none 47) by exact NS.
  replace (str "master" ++ names_of ids ++ mask_text m ++ str ".m3u8") with ((str "master" ++ names_of ids ++ mask_text m) ++ 46 :: str "m3u8") by (rewrite <- !app_assoc; reflexivity).
  assert (no 46 (str "m3u8")) as N46 by (vm_compute; intuition discriminate). rewrite before_last_app, after_last_app by exact N46.
  assert (existsb (Z.eqb 46) ((str "master" ++ names_of ids ++ mask_text m) ++ 46 :: str "m3u8") = true) as ->.
  { apply existsb_exists. exists 46. split; [apply in_or_app; right; left; reflexivity | reflexivity]. }
  rewrite core_m3u8. unfold parse_m3u8. change (after (str "index") (str "master" ++ names_of ids ++ mask_text m)) with (@None (list Z)). rewrite after_ok.
  assert (flags_ok MasterList (Z.lor (Z.lor (l_active_policy f) (F_TIMELINE + F_MEDIA_INFO + F_LAST_SEGMENT_ONLY + F_MAX_PENDING)) (l_base_flags f)) = true) as FO.
  { rewrite HB. destruct HP as [ -> | -> ], a, b; vm_compute; reflexivity. }
  assert (Z.land m 7 = m) as ML by (change 7 with (Z.ones 3); rewrite Z.land_ones by lia; apply Z.mod_small; lia).
  assert (fits m 7) as FT by (destruct (Z.eq_dec m 7); [left; assumption | right; split; [lia | exact ML]]).
  pose proof (mask_says m 7 (or_intror (or_introl eq_refl)) FT) as S. rewrite ML in S.
  set (fl := OPTIONAL_VARIANTS + OPTIONAL_MEDIA_TYPE).
  assert (exists n, parse_file_name fl (name0 7 3) (names_of ids ++ mask_text m) = Ok n /\ n_seg n = none /\ n_part n = none
    /\ n_ids n = match ids with [] => None | _ => Some (join ids) end /\ n_mask n = m) as (n & P & N1 & N2 & N3 & N4).
  { unfold parse_file_name. change (has fl REQUIRE_INDEX) with false. change (has fl REQUIRE_PART_INDEX) with false. change (has fl REQUIRE_SINGLE_VARIANT) with false. cbn [bind fst snd].
    destruct ids as [|id ids].
    - cbn [names_of flat_map app]. destruct (mask_shape m M) as [E|(c & r & E & C)].
      + rewrite E in *. destruct S as [[_ ->]|(ls & K & _)]; [|discriminate]. eexists. split; [reflexivity|]. repeat split.
      + rewrite E in *. unfold parse_options. rewrite zlen_lt2. cbn [Z.eqb Pos.eqb negb orb]. assert (c =? 115 = false) as -> by lia. cbn [andb].
        assert (parse_types fl (name0 7 3) (c :: r) = Ok (with_types (name0 7 3) m (45 :: c :: r))) as ->.
        { apply parse_types_iff; [reflexivity|]. exists m. split; [discriminate|]. split; [exact S | reflexivity]. }
        eexists. split; [reflexivity|]. repeat split.
    - cbn [names_of flat_map app]. fold (names_of ids). unfold parse_options. rewrite zlen_lt2. cbn [Z.eqb Pos.eqb negb orb].
      change (has fl (Z.lor OPTIONAL_VARIANTS OPTIONAL_SINGLE_VARIANT)) with true. cbn [andb]. rewrite <- app_assoc.
      rewrite variants_ok; [| | eapply Forall_impl; [|exact F]; intros i (H1 & H2); split; [apply H1 | exact H2] | apply mask_shape; exact M | left; reflexivity].
      2:{ cbn [length]. rewrite !app_length. pose proof (len_names ids). lia. }
      cbn [bind fst snd app]. destruct (mask_shape m M) as [E|(c & r & E & C)]; rewrite E in *.
      + destruct S as [[_ ->]|(ls & K & _)]; [|discriminate]. eexists. split; [reflexivity|]. repeat split.
      + change (has fl OPTIONAL_SINGLE_VARIANT) with false. cbn [andb].
        assert (parse_types fl (set_ids (join (id :: ids)) (name0 7 3)) (c :: r) = Ok (with_types (set_ids (join (id :: ids)) (name0 7 3)) m (45 :: c :: r))) as ->.
        { apply parse_types_iff; [reflexivity|]. exists m. split; [discriminate|]. split; [exact S | reflexivity]. }
        eexists. split; [reflexivity|]. repeat split. }
  rewrite P. cbn [bind]. rewrite core_rest_ok by (left; exact N2). eexists. split; [reflexivity|]. cbn [a_handler a_name a_skip a_flags].
  split; [reflexivity|]. split; [exact N1|]. split; [exact N2|]. split; [reflexivity|]. split; [exact N3|]. split; [exact N4 | exact FO].
Qed.

Lemma join_bytes l : Forall (Forall is_byte) l -> Forall is_byte (join l).
Proof.
  induction l as [|x l IH]; intros F; [apply Forall_nil|]. inversion F as [|? ? B F']; subst. destruct l as [|y l]; [exact B|].
  change (join (x :: y :: l)) with (x ++ 45 :: join (y :: l)). apply Forall_app. split; [exact B|]. apply Forall_cons; [unfold is_byte; lia | apply IH; exact F'].
Qed.

Theorem master_reaches f ch tl ids m args : loc_ok f -> Forall is_byte ch -> Forall is_byte tl -> Forall (fun i => id_ok i /\ i <> []) ids -> 1 <= m <= 7 ->
  reaches f ch tl (master_uri ids m) args MasterList ids m.
Proof.
  intros L Hc Ht F M. destruct (master_fetched f ids m args L F M) as (a & E & Hh & N1 & N2 & Hs & N3 & N4 & Hf).
  apply (reaches_intro f ch tl _ args a); rewrite ?Hh, ?N1, ?N2, ?N3, ?N4; try assumption; try reflexivity.
  - intros v H. destruct ids as [|id ids]; [discriminate|]. injection H as H. rewrite <- H. change (Forall is_byte (join (id :: ids))).
    apply join_bytes. eapply Forall_impl; [|exact F]. intros i ((B & _) & _). exact B.
  - destruct ids as [|id ids]; [reflexivity|]. apply ids_split; [discriminate|]. eapply Forall_impl; [|exact F]. intros i ((_ & _ & N & _) & _). exact N.
  - unfold index_ok; cbn [asked_seg seg_of asked_part part_of skip_of]. unfold none. lia.
Qed.
