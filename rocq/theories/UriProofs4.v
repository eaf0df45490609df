(* The uris that a playlist announces. *)
From Coq Require Import String Ascii ZArith List Bool Lia ZifyBool.
From Verif Require Import Bytes M3u8Model M3u8Spec M3u8Proofs M3u8Proofs7 M3u8Proofs9 UriModel UriSpec UriProofs UriProofs2 UriProofs3.
Import ListNotations.
Open Scope Z_scope.

(* ----- reading the path *)
Lemma decode_plain p : forall rest r, no 37 p -> decode rest = Some r -> decode (p ++ rest) = Some (p ++ r).
Proof.
  induction p as [|c p IH]; intros rest r N D; [exact D|]. cbn [app decode]. destruct (c =? 37) eqn:E; [exfalso; apply N; left; lia|].
  rewrite (IH rest r); [reflexivity | intros H; apply N; right; exact H | exact D].
Qed.
Lemma hex_digit_char d : 0 <= d < 16 -> hex_digit (hex_char d) = Some d.
Proof.
  intros H. assert (d = 0 \/ d = 1 \/ d = 2 \/ d = 3 \/ d = 4 \/ d = 5 \/ d = 6 \/ d = 7 \/ d = 8 \/ d = 9 \/ d = 10 \/ d = 11 \/ d = 12 \/ d = 13 \/ d = 14 \/ d = 15) as E by lia.
  repeat (destruct E as [ -> | E]; [reflexivity|]). subst. reflexivity.
Qed.
Lemma decode_escape id : forall rest r, Forall is_byte id -> ~ In 0 id -> decode rest = Some r -> decode (escape id ++ rest) = Some (id ++ r).
Proof.
  induction id as [|c id IH]; intros rest r B N D; [exact D|]. inversion B as [|? ? B1 B2]; subst. unfold is_byte in B1.
  assert (decode (escape id ++ rest) = Some (id ++ r)) as R by (apply IH; [exact B2 | intros H; apply N; right; exact H | exact D]).
  unfold escape. cbn [flat_map]. fold (escape id). destruct (unreserved c) eqn:U.
  - cbn [app decode]. destruct (c =? 37) eqn:E; [unfold unreserved in U; lia|]. rewrite R. reflexivity.
  - cbn [hex_string flat_map app]. cbn [decode]. rewrite Z.eqb_refl. rewrite hex_digit_char by lia. rewrite hex_digit_char by lia. rewrite R.
    replace (16 * (c / 16) + c mod 16) with c by lia. destruct (c =? 0) eqn:E; [exfalso; apply N; left; lia | reflexivity].
Qed.

Lemma existsb_no c l : no c l -> existsb (Z.eqb c) l = false.
Proof. intros N. destruct (existsb (Z.eqb c) l) eqn:E; [|reflexivity]. apply existsb_exists in E. destruct E as (x & I & E). exfalso. apply N. assert (c = x) by lia. subst. exact I. Qed.
Lemma after_last_none c l : no c l -> after_last c l = l.
Proof.
  destruct l as [|x l]; intros N; [reflexivity|]. cbn [after_last]. rewrite existsb_no by (intros H; apply N; right; exact H).
  destruct (x =? c) eqn:E; [exfalso; apply N; left; lia | reflexivity].
Qed.
Lemma after_last_app c x y : no c y -> after_last c (x ++ c :: y) = y.
Proof.
  intros N. induction x as [|a x IH].
  - cbn [app after_last]. rewrite existsb_no by exact N. rewrite Z.eqb_refl. reflexivity.
  - cbn [app after_last]. assert (existsb (Z.eqb c) (x ++ c :: y) = true) as ->.
    { apply existsb_exists. exists c. split; [apply in_or_app; right; left; reflexivity | apply Z.eqb_refl]. }
    exact IH.
Qed.
Lemma before_last_app c x y : no c y -> before_last c (x ++ c :: y) = x.
Proof.
  intros N. unfold before_last. rewrite after_last_app by exact N. rewrite app_length. cbn [length].
  replace (length x + S (length y) - length y - 1)%nat with (length x) by lia. rewrite firstn_app, firstn_all, Nat.sub_diag. cbn [firstn]. apply app_nil_r.
Qed.

(* the text of the announced uris *)
Definition safe (l : list Z) : Prop := no 37 l /\ no 47 l.
Lemma safe_app a b : safe a -> safe b -> safe (a ++ b).
Proof. intros [A B] [C D]. split; intros H; apply in_app_or in H; destruct H; auto. Qed.

Lemma fetch_name f pre id post e args : safe pre -> safe post -> safe e -> no 46 e -> id_ok id ->
  fetch f (pre ++ escape id ++ post ++ 46 :: e) args = core_parse f (pre ++ id ++ post) e args.
Proof.
  intros [P1 P2] [Q1 Q2] [E1 E2] E3 (I1 & I2 & I3 & I4). unfold fetch.
  assert (decode (46 :: e) = Some (46 :: e)) as D. { rewrite <- (app_nil_r (46 :: e)). apply decode_plain; [|reflexivity]. intros [H|H]; [discriminate | exact (E1 H)]. }
  rewrite (decode_plain pre (escape id ++ post ++ 46 :: e) (id ++ post ++ 46 :: e)); [|exact P1|].
  2:{ apply decode_escape; [exact I1 | exact I2 |]. apply decode_plain; [exact Q1 | exact D]. }
  assert (no 47 (pre ++ id ++ post ++ 46 :: e)) as N.
  { intros H. repeat (apply in_app_or in H; destruct H as [H|H]); [exact (P2 H) | exact (I4 H) | exact (Q2 H) | destruct H as [H|H]; [discriminate | exact (E2 H)]]. }
  rewrite (after_last_none 47) by exact N.
  replace (pre ++ id ++ post ++ 46 :: e) with ((pre ++ id ++ post) ++ 46 :: e) by (rewrite <- !app_assoc; reflexivity).
  rewrite before_last_app, after_last_app by exact E3.
  assert (existsb (Z.eqb 46) ((pre ++ id ++ post) ++ 46 :: e) = true) as ->; [|reflexivity].
  apply existsb_exists. exists 46. split; [apply in_or_app; right; left; reflexivity | reflexivity].
Qed.

Lemma fetch_plain f pre e args : safe pre -> safe e -> no 46 e -> fetch f (pre ++ 46 :: e) args = core_parse f pre e args.
Proof.
  intros P E N. pose proof (fetch_name f pre [] [] e args P) as H. cbn [escape flat_map app] in H. rewrite app_nil_r in H. apply H; try assumption.
  - split; intros [].
  - repeat split; [apply Forall_nil | intros [] | intros [] | intros []].
Qed.

Lemma dec_safe n : safe (dec n).
Proof. split; apply dec_no; reflexivity. Qed.
Lemma mask_safe m : safe (mask_text m).
Proof.
  unfold mask_text. destruct (m =? 7); [split; intros []|]. destruct (Z.testbit m 0), (Z.testbit m 1), (Z.testbit m 2); split; vm_compute; intuition discriminate.
Qed.
Ltac safe_lit := split; vm_compute; intuition discriminate.

Lemma dec_index i : 0 <= i < none -> says_index (dec (i + 1)) i.
Proof.
  intros H. unfold none in H. split; [apply dec_digits|]. split; [|lia].
  assert (value (dec (i + 1)) = i + 1) as V. { unfold dec. rewrite u32_small by lia. apply dec_f_value. change (10 ^ Z.of_nat 20) with 100000000000000000000. lia. }
  unfold value in V. rewrite V. apply u32_small. lia.
Qed.

Lemma mask_says m can : can = 3 \/ can = 7 \/ can = 4 -> fits m can -> says_types can (mask_text m) (Z.land m can).
Proof.
  intros C [ -> | [R L]].
  - left. split; [reflexivity|]. destruct C as [ -> | [ -> |  ->]]; reflexivity.
  - rewrite L. right. assert (m = 1 \/ m = 2 \/ m = 3 \/ m = 4 \/ m = 5 \/ m = 6) as M by lia.
    assert (exists letters, mask_text m = 45 :: letters /\ letters <> [] /\ NoDup letters /\ m = letters_mask letters
      /\ Forall (fun c => c = 118 /\ Z.land m 1 <> 0 \/ c = 97 /\ Z.land m 2 <> 0 \/ c = 116 /\ Z.land m 4 <> 0) letters) as (ls & H1 & H2 & H3 & H4 & H5).
    { destruct M as [ -> | [ -> | [ -> | [ -> | [ -> |  ->]]]]];
      [exists [118] | exists [97] | exists [118; 97] | exists [116] | exists [118; 116] | exists [97; 116]];
      (split; [reflexivity|]; split; [discriminate|]; split;
       [repeat (apply NoDup_cons; [vm_compute; intuition discriminate|]); apply NoDup_nil|]; split; [reflexivity|]);
      repeat match goal with
      | |- Forall _ (118 :: _) => apply Forall_cons; [left; split; [reflexivity | discriminate]|]
      | |- Forall _ (97 :: _) => apply Forall_cons; [right; left; split; [reflexivity | discriminate]|]
      | |- Forall _ (116 :: _) => apply Forall_cons; [right; right; split; [reflexivity | discriminate]|]
      | |- Forall _ [] => apply Forall_nil
      end. }
    exists ls. split; [exact H1|]. split; [exact H2|]. split; [exact H3|]. split; [|exact H4].
    assert (forall b, Z.land m b <> 0 -> Z.land can b <> 0) as K.
    { intros b Hb Hc. apply Hb. rewrite <- L, <- Z.land_assoc, Hc, Z.land_0_r. reflexivity. }
    eapply Forall_impl; [|exact H5]. intros c [[A B]|[[A B]|[A B]]]; [left | right; left | right; right]; (split; [exact A | apply K; exact B]).
Qed.

(* a name without the suffix of a subtitle format *)
Lemma after_app p : forall l r, after p l = Some r -> l = p ++ r.
Proof.
  induction p as [|a p IH]; intros l r H; [injection H as <-; reflexivity|]. destruct l as [|b l]; [discriminate|]. cbn [after] in H.
  destruct (a =? b) eqn:E; [|discriminate]. rewrite (IH _ _ H). cbn [app]. f_equal. lia.
Qed.
Lemma after_ok p r : after p (p ++ r) = Some r.
Proof. induction p as [|a p IH]; [reflexivity|]. cbn [app after]. rewrite Z.eqb_refl. exact IH. Qed.
Lemma drop_app s l r : drop_suffix s l = Some r -> l = r ++ s.
Proof.
  unfold drop_suffix. destruct (after (rev s) (rev l)) as [t|] eqn:E; [|discriminate]. intros H. injection H as <-.
  apply after_app in E. rewrite <- (rev_involutive l), E, rev_app_distr, rev_involutive. reflexivity.
Qed.
Lemma no_suffix x y : no 45 y -> y <> str "wvtt" -> y <> str "stpp" -> fmp4_name (x ++ 45 :: y) = x ++ 45 :: y.
Proof.
  intros N W S. unfold fmp4_name.
  assert (forall w, no 45 w -> y <> w -> drop_suffix (45 :: w) (x ++ 45 :: y) = None) as G.
  { intros w Nw D. destruct (drop_suffix (45 :: w) (x ++ 45 :: y)) as [r|] eqn:E; [|reflexivity]. exfalso. apply D. apply drop_app in E.
    rewrite <- (after_last_app 45 x y N), E. apply after_last_app. exact Nw. }
  change (str "-wvtt") with (45 :: str "wvtt"). change (str "-stpp") with (45 :: str "stpp").
  rewrite (G (str "wvtt")), (G (str "stpp")); [reflexivity | | | |]; try assumption; vm_compute; intuition discriminate.
Qed.
(* the name of variant "tpp" ends as one with a subtitle format does *)
Lemma fmp4_plain x id m : no 45 id -> id <> str "tpp" -> fmp4_name (x ++ 45 :: 115 :: id ++ mask_text m) = x ++ 45 :: 115 :: id ++ mask_text m.
Proof.
  intros N T. unfold mask_text. destruct (m =? 7).
  - rewrite app_nil_r. apply no_suffix; [intros [H|H]; [discriminate | exact (N H)] | intros H; discriminate H |].
    intros H. apply T. change (115 :: id = 115 :: str "tpp") in H. injection H as H. exact H.
  - match goal with |- context [id ++ str "-" ++ ?b] => replace (x ++ 45 :: 115 :: id ++ str "-" ++ b) with ((x ++ 45 :: 115 :: id) ++ 45 :: b) by (rewrite <- app_assoc; reflexivity) end.
    apply no_suffix; destruct (Z.testbit m 0), (Z.testbit m 1), (Z.testbit m 2); vm_compute; intuition discriminate.
Qed.

(* ----- from a name to the live server *)
Definition asked_seg (w : kind) : Z := match w with Wait i _ _ => i | _ => seg_of w end.
Definition asked_part (w : kind) : Z := match w with Wait _ k _ => if k =? -1 then none else k | _ => part_of w end.
Definition waits (w : kind) : bool := match w with Wait _ _ _ => true | _ => false end.
Definition index_ok (w : kind) : Prop :=
  0 <= asked_seg w <= none /\ 0 <= asked_part w <= none /\ 0 <= skip_of w < 2 ^ 32
  /\ match w with
     | Segment i | Init i => i < none
     | Part i k => i < none /\ k < none
     | Wait i _ _ => i < none
     | _ => True
     end.
Definition flags_ok (w : kind) (fl : Z) : bool :=
  (0 <? fl) && (fl <? 2 ^ 32) && negb (Z.land fl F_TIME_RELATIVE =? F_TIME_RELATIVE) && negb (has fl F_MEDIA_CLIP)
  && Bool.eqb (has fl F_MEDIA) (wants_media w) && Bool.eqb (has fl F_SKIP_SEGMENTS) (0 <? skip_of w)
  && Bool.eqb (has fl F_WAIT) (waits w)
  && ((asked_seg w <? none) || negb (has fl (F_MEDIA + F_SEGMENT_TIME))).
Definition bytes_opt (o : option (list Z)) : Prop := forall v, o = Some v -> Forall is_byte v.

Lemma reaches_intro f ch tl uri args a w ids types : Forall is_byte ch -> Forall is_byte tl ->
  fetch f uri args = Ok a -> handler_ok w (a_handler a) -> bytes_opt (n_ids (a_name a)) ->
  match n_ids (a_name a) with Some t => ids_loop [] t | None => [] end = ids ->
  n_mask (a_name a) = types -> 1 <= types <= 7 ->
  n_seg (a_name a) = asked_seg w -> n_part (a_name a) = asked_part w -> a_skip a = skip_of w ->
  index_ok w -> flags_ok w (a_flags a) = true -> reaches f ch tl uri args w ids types.
Proof.
  intros Hc Ht F Hh Hb Hi Hm Rm Hs Hp Hk (X1 & X2 & X3 & X4) Hf. unfold flags_ok in Hf.
  apply andb_true_iff in Hf. destruct Hf as [Hf F8]. apply andb_true_iff in Hf. destruct Hf as [Hf F7]. apply andb_true_iff in Hf. destruct Hf as [Hf F6].
  apply andb_true_iff in Hf. destruct Hf as [Hf F5]. apply andb_true_iff in Hf. destruct Hf as [Hf F4]. apply andb_true_iff in Hf. destruct Hf as [Hf F3].
  apply andb_true_iff in Hf. destruct Hf as [F1 F2]. apply eqb_prop in F5, F6, F7. apply negb_true_iff in F3, F4.
  set (q := request_of ch tl none a).
  assert (kreq_ok q) as Q.
  { unfold q, request_of, kreq_ok; cbn [k_channel k_timeline k_ids k_mask k_seg k_max_seg k_part k_skip k_time k_padding k_flags]. rewrite Hm, Hs, Hp, Hk.
    split; [exact Hc|]. split; [exact Ht|]. split; [exact Hb|]. do 6 (split; [unfold INVALID_TIME, none in *; lia|]). split; [left; reflexivity | lia]. }
  pose proof (args_understood q Q) as U. assert (zlen (request_text q) <= request_size q) as L by (apply request_len; change (k_time q) with (2 ^ 63 - 1); lia).
  set (p := if waits w then
    {| p_channel := Some ch; p_timeline := Some tl; p_ids := n_ids (a_name a); p_mask := types; p_time_arg := INVALID_TIME; p_seg := none;
       p_max_seg := none; p_part := none; p_skip := skip_of w; p_padding := 0; p_flags := a_flags a; p_wait_sequence := asked_seg w; p_wait_part := asked_part w |}
    else same q).
  assert (live_parse (request_text q) = Some p) as LP.
  { unfold live_parse. rewrite U. unfold same, q, request_of;
      cbn [k_channel k_timeline k_ids k_mask k_seg k_max_seg k_part k_skip k_time k_padding k_flags p_channel p_timeline p_ids p_mask p_time_arg p_seg p_max_seg p_part p_skip p_padding p_flags p_wait_sequence p_wait_part].
    destruct (a_flags a =? 0) eqn:E0; [lia|]. rewrite F3, F4, F7, Hs, Hp, Hk. change INVALID_INDEX with none. rewrite Z.eqb_refl.
    destruct (asked_seg w =? none) eqn:E1; cbn [negb andb].
    - assert (waits w = false) as W. { destruct w; try reflexivity. cbn [asked_seg] in E1. lia. }
      rewrite W. assert (asked_part w =? none = true) as ->. { destruct w; cbn [asked_seg seg_of asked_part part_of] in *; try apply Z.eqb_refl; try lia. }
      cbn [negb]. assert (has (a_flags a) (F_MEDIA + F_SEGMENT_TIME) = false) as -> by (destruct (has (a_flags a) (F_MEDIA + F_SEGMENT_TIME)); [lia | reflexivity]).
      unfold p. rewrite W. unfold same, q, request_of; cbn [k_channel k_timeline k_ids k_mask k_seg k_max_seg k_part k_skip k_time k_padding k_flags]. rewrite Hs, Hp, Hk. reflexivity.
    - unfold p. destruct (waits w); [rewrite Hm; reflexivity|].
      unfold same, q, request_of; cbn [k_channel k_timeline k_ids k_mask k_seg k_max_seg k_part k_skip k_time k_padding k_flags]. rewrite Hs, Hp, Hk. reflexivity. }
  exists a, (request_text q), p. split; [exact F|]. split; [exact Hh|]. split.
  { change (create_request q = Some (request_text q)). unfold create_request. destruct (zlen (request_text q) >? request_size q) eqn:E; [lia | reflexivity]. }
  split; [exact LP|].
  assert (p_flags p = a_flags a /\ p_channel p = Some ch /\ p_timeline p = Some tl /\ p_ids p = n_ids (a_name a) /\ p_mask p = types /\ p_seg p = seg_of w /\ p_part p = part_of w
    /\ p_time_arg p = 2 ^ 63 - 1 /\ p_max_seg p = none /\ p_skip p = skip_of w /\ (waits w = true -> p_wait_sequence p = asked_seg w /\ p_wait_part p = asked_part w))
    as (P1 & P2 & P3 & P4 & P5 & P6 & P7 & P8 & P9 & P10 & P11).
  { unfold p. destruct w; cbn [waits]; unfold same, q, request_of;
      cbn [k_channel k_timeline k_ids k_mask k_seg k_max_seg k_part k_skip k_time k_padding k_flags p_channel p_timeline p_ids p_mask p_time_arg p_seg p_max_seg p_part p_skip p_padding p_flags p_wait_sequence p_wait_part];
      rewrite ?Hm, ?Hs, ?Hp, ?Hk; do 10 (split; [reflexivity|]); try (intros K; discriminate K). intros _. split; reflexivity. }
  rewrite P1, P2, P3, P4, P5, P6, P7, P8, P9, P10, Hi, F5, F6, F7. repeat (split; [reflexivity|]).
  destruct w; try reflexivity. destruct (P11 eq_refl) as [A B]. split; [reflexivity|]. split; assumption.
Qed.
