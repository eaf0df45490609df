(* The live server understands what the packager asks. *)
From Coq Require Import String Ascii ZArith List Bool Lia ZifyBool.
From Verif Require Import Bytes M3u8Model M3u8Spec M3u8Proofs M3u8Proofs7 M3u8Proofs9 UriModel UriSpec UriProofs UriProofs2.
Import ListNotations.
Open Scope Z_scope.

Definition opt (b : bool) (kv : list Z * list Z) : list (list Z * list Z) := if b then [] else [kv].

Definition first_kv (q : kreq) : list Z * list Z := (str "channel_id", k_channel q).
Definition rest_kvs (q : kreq) : list (list Z * list Z) :=
  [(str "timeline_id", k_timeline q); (str "flags", hex32 (k_flags q))]
  ++ match k_ids q with Some v => [(str "variant_ids", v)] | None => [] end
  ++ opt (k_time q =? INVALID_TIME) (str "time", dec_int64 (k_time q))
  ++ opt (k_seg q =? INVALID_INDEX) (str "segment_index", dec (k_seg q))
  ++ opt (k_max_seg q =? INVALID_INDEX) (str "max_segment_index", dec (k_max_seg q))
  ++ opt (k_part q =? INVALID_INDEX) (str "part_index", dec (k_part q))
  ++ opt (negb (k_skip q >? 0)) (str "skip_boundary_percent", dec (k_skip q))
  ++ opt (k_mask q =? 7) (str "media_type_mask", hex32 (k_mask q))
  ++ opt (k_padding q =? 0) (str "padding", dec_size (k_padding q)).

Lemma dec_plain n : Forall (fun c => args_plain c = true) (dec n) /\ Forall is_byte (dec n).
Proof. apply digits_plain, dec_digits. Qed.
Lemma dec64_plain n : 0 <= n < 2 ^ 64 -> Forall (fun c => args_plain c = true) (dec_f 20 n) /\ Forall is_byte (dec_f 20 n).
Proof. intros H. apply digits_plain, (dec_f_20 n H). Qed.
Lemma hex_plain n : Forall (fun c => args_plain c = true) (hex32 n) /\ Forall is_byte (hex32 n).
Proof. apply hex_f_plain. unfold u32. apply Z.mod_pos_bound. lia. Qed.
Lemma int64_text n : 0 <= n -> dec_int64 n = dec_f 20 n.
Proof. intros H. unfold dec_int64. destruct (n <? 0) eqn:E; [lia | reflexivity]. Qed.
Lemma size_text n : 0 <= n < 2 ^ 64 -> dec_size n = dec_f 20 n.
Proof. intros H. unfold dec_size, u64. rewrite Z.mod_small by exact H. reflexivity. Qed.

Lemma item_plain key k v : str key = 38 :: k ++ [61] -> Forall (fun c => args_plain c = true) v -> str key ++ v = 38 :: arg (k, v).
Proof. intros -> P. unfold arg. cbn [fst snd]. rewrite (escape_plain_text v P). cbn [app]. rewrite <- app_assoc. reflexivity. Qed.
Lemma item_escaped key k v : str key = 38 :: k ++ [61] -> str key ++ escape_args v = 38 :: arg (k, v).
Proof. intros ->. unfold arg. cbn [fst snd]. cbn [app]. rewrite <- app_assoc. reflexivity. Qed.

Lemma item_plain_t key k v t : str key = 38 :: k ++ [61] -> Forall (fun c => args_plain c = true) v -> str key ++ v ++ t = (38 :: arg (k, v)) ++ t.
Proof. intros E P. rewrite <- (item_plain key k v E P), <- app_assoc. reflexivity. Qed.
Lemma item_escaped_t key k v t : str key = 38 :: k ++ [61] -> str key ++ escape_args v ++ t = (38 :: arg (k, v)) ++ t.
Proof. intros E. rewrite <- (item_escaped key k v E), <- app_assoc. reflexivity. Qed.

Lemma land7 m : 0 < m <= 7 -> Z.land m 7 = m.
Proof. intros H. change 7 with (Z.ones 3). rewrite Z.land_ones by lia. change (2 ^ 3) with 8. apply Z.mod_small. lia. Qed.

Lemma opt_text (b : bool) k v t : 38 :: arg (k, v) = t -> flat_map (fun x => 38 :: arg x) (opt b (k, v)) = if b then [] else t.
Proof. intros <-. destruct b; cbn [opt flat_map]; [reflexivity | apply app_nil_r]. Qed.

Lemma request_items q : kreq_ok q -> request_text q = arg (first_kv q) ++ flat_map (fun x => 38 :: arg x) (rest_kvs q).
Proof.
  intros (B1 & B2 & B3 & HM & H1 & H2 & H3 & H4 & H5 & H6 & H7). unfold request_text, rest_kvs. rewrite (land7 _ HM).
  rewrite !flat_map_app. unfold first_kv, arg at 1. cbn [fst snd]. change (str "channel_id=") with (str "channel_id" ++ [61]). rewrite <- !app_assoc. f_equal. f_equal. f_equal.
  cbn [flat_map]. rewrite (item_escaped_t "&timeline_id=" (str "timeline_id")) by reflexivity. rewrite app_nil_r, <- !app_assoc. f_equal.
  rewrite (item_plain_t "&flags=" (str "flags") _ _ eq_refl (proj1 (hex_plain _))). f_equal.
  assert (Forall (fun c => args_plain c = true) (dec_int64 (k_time q))) as PT by (rewrite int64_text by lia; apply dec64_plain; lia).
  assert (Forall (fun c => args_plain c = true) (dec_size (k_padding q))) as PP by (rewrite size_text by lia; apply dec64_plain; lia).
  rewrite (opt_text _ _ _ _ (eq_sym (item_plain "&time=" (str "time") _ eq_refl PT))).
  rewrite (opt_text _ _ _ _ (eq_sym (item_plain "&segment_index=" (str "segment_index") _ eq_refl (proj1 (dec_plain _))))).
  rewrite (opt_text _ _ _ _ (eq_sym (item_plain "&max_segment_index=" (str "max_segment_index") _ eq_refl (proj1 (dec_plain _))))).
  rewrite (opt_text _ _ _ _ (eq_sym (item_plain "&part_index=" (str "part_index") _ eq_refl (proj1 (dec_plain _))))).
  rewrite (opt_text _ _ _ _ (eq_sym (item_plain "&skip_boundary_percent=" (str "skip_boundary_percent") _ eq_refl (proj1 (dec_plain _))))).
  rewrite (opt_text _ _ _ _ (eq_sym (item_plain "&media_type_mask=" (str "media_type_mask") _ eq_refl (proj1 (hex_plain _))))).
  rewrite (opt_text _ _ _ _ (eq_sym (item_plain "&padding=" (str "padding") _ eq_refl PP))).
  assert (match k_ids q with Some v => str "&variant_ids=" ++ escape_args v | None => [] end =
          flat_map (fun x => 38 :: arg x) match k_ids q with Some v => [(str "variant_ids", v)] | None => [] end) as ->.
  { destruct (k_ids q) as [v|]; [|reflexivity]. cbn [flat_map]. rewrite app_nil_r. apply item_escaped. reflexivity. }
  do 5 f_equal.
  assert ((if k_skip q >? 0 then str "&skip_boundary_percent=" ++ dec (k_skip q) else []) =
          (if negb (k_skip q >? 0) then [] else str "&skip_boundary_percent=" ++ dec (k_skip q))) as -> by (destruct (k_skip q >? 0); reflexivity).
  f_equal. f_equal. destruct (k_mask q =? 7) eqn:E; [reflexivity|]. destruct (k_mask q =? 0) eqn:E0; [lia | reflexivity].
Qed.

Ltac eqs_eval :=
  repeat match goal with |- context [eqs (str ?a) (str ?b)] =>
    let x := eval vm_compute in (eqs (str a) (str b)) in change (eqs (str a) (str b)) with x end; cbv iota.

Ltac key_ok := split; [vm_compute; discriminate | vm_compute; repeat (apply Forall_cons; [split; [reflexivity | discriminate]|]); apply Forall_nil].

Lemma kvs_ok q : kreq_ok q -> Forall (fun kv => plain_key (fst kv) /\ Forall is_byte (snd kv)) (first_kv q :: rest_kvs q).
Proof.
  intros (B1 & B2 & B3 & HM & H1 & H2 & H3 & H4 & H5 & H6 & H7).
  assert (forall b k v, plain_key k -> Forall is_byte v -> Forall (fun kv => plain_key (fst kv) /\ Forall is_byte (snd kv)) (opt b (k, v))) as O.
  { intros b k v A B. destruct b; cbn [opt]; [apply Forall_nil | apply Forall_cons; [split; assumption | apply Forall_nil]]. }
  apply Forall_cons; [split; [key_ok | exact B1]|]. unfold rest_kvs.
  apply Forall_app; split; [apply Forall_cons; [split; [key_ok | exact B2] | apply Forall_cons; [split; [key_ok | apply hex_plain] | apply Forall_nil]]|].
  apply Forall_app; split; [destruct (k_ids q) as [v|] eqn:E; [apply Forall_cons; [split; [key_ok | apply B3; reflexivity] | apply Forall_nil] | apply Forall_nil]|].
  apply Forall_app; split; [apply O; [key_ok | rewrite int64_text by lia; apply dec64_plain; lia]|].
  apply Forall_app; split; [apply O; [key_ok | apply dec_plain]|].
  apply Forall_app; split; [apply O; [key_ok | apply dec_plain]|].
  apply Forall_app; split; [apply O; [key_ok | apply dec_plain]|].
  apply Forall_app; split; [apply O; [key_ok | apply dec_plain]|].
  apply Forall_app; split; [apply O; [key_ok | apply hex_plain]|].
  apply O; [key_ok | rewrite size_text by lia; apply dec64_plain; lia].
Qed.

Lemma fold_args_app {S} (h : list Z -> list Z -> S -> option S) a : forall b s,
  fold_args S h (a ++ b) s = match fold_args S h a s with Some s' => fold_args S h b s' | None => None end.
Proof. induction a as [|[k v] a IH]; intros b s; [reflexivity|]. cbn [app fold_args]. destruct (h k v s); [apply IH | reflexivity]. Qed.

Definition mk ch tl ids mask tm sg mx pt sk pd fl : params :=
  {| p_channel := ch; p_timeline := tl; p_ids := ids; p_mask := mask; p_time_arg := tm;
     p_seg := sg; p_max_seg := mx; p_part := pt; p_skip := sk; p_padding := pd; p_flags := fl;
     p_wait_sequence := 0; p_wait_part := 0 |}.

Lemma args_understood q : kreq_ok q -> parse_args live_arg (request_text q) params0 = Some (same q).
Proof.
  intros K. rewrite (request_items q K). rewrite parse_args_fold by (apply kvs_ok; exact K).
  destruct K as (B1 & B2 & B3 & HM & H1 & H2 & H3 & H4 & H5 & H6 & H7).
  cbn [fold_args first_kv]. change params0 with (mk None None None 7 INVALID_TIME INVALID_INDEX INVALID_INDEX INVALID_INDEX 0 0 0).
  unfold live_arg at 1. eqs_eval. unfold rest_kvs. rewrite fold_args_app. cbn [fold_args].
  unfold live_arg at 1. eqs_eval. unfold live_arg at 1. eqs_eval. rewrite hextoi_hex32 by exact H7. rewrite (u32_small (k_flags q)) by exact H7.
  cbn [p_channel p_timeline p_ids p_mask p_time_arg p_seg p_max_seg p_part p_skip p_padding p_flags p_wait_sequence p_wait_part mk].
  rewrite fold_args_app.
  assert (fold_args params live_arg match k_ids q with Some v => [(str "variant_ids", v)] | None => [] end
     {| p_channel := Some (k_channel q); p_timeline := Some (k_timeline q); p_ids := None; p_mask := 7; p_time_arg := INVALID_TIME;
        p_seg := INVALID_INDEX; p_max_seg := INVALID_INDEX; p_part := INVALID_INDEX; p_skip := 0; p_padding := 0; p_flags := k_flags q;
        p_wait_sequence := 0; p_wait_part := 0 |}
     = Some (mk (Some (k_channel q)) (Some (k_timeline q)) (k_ids q) 7 INVALID_TIME INVALID_INDEX INVALID_INDEX INVALID_INDEX 0 0 (k_flags q))) as ->.
  { destruct (k_ids q) as [v|]; [|reflexivity]. cbn [fold_args]. unfold live_arg at 1. eqs_eval. reflexivity. }
  rewrite fold_args_app.
  assert (forall ch tl ids mask sg mx pt sk pd fl,
    fold_args params live_arg (opt (k_time q =? INVALID_TIME) (str "time", dec_int64 (k_time q))) (mk ch tl ids mask INVALID_TIME sg mx pt sk pd fl)
    = Some (mk ch tl ids mask (k_time q) sg mx pt sk pd fl)) as ->.
  { intros. destruct (k_time q =? INVALID_TIME) eqn:E; cbn [opt fold_args]; [f_equal; f_equal; lia|].
    unfold live_arg at 1. eqs_eval. rewrite int64_text by lia. rewrite atoi_dec_f by (unfold MAX_INT; lia).
    destruct (k_time q >=? INVALID_TIME) eqn:E2; [unfold INVALID_TIME in *; lia | reflexivity]. }
  rewrite fold_args_app.
  assert (forall ch tl ids mask tm mx pt sk pd fl,
    fold_args params live_arg (opt (k_seg q =? INVALID_INDEX) (str "segment_index", dec (k_seg q))) (mk ch tl ids mask tm INVALID_INDEX mx pt sk pd fl)
    = Some (mk ch tl ids mask tm (k_seg q) mx pt sk pd fl)) as ->.
  { intros. unfold none in *. destruct (k_seg q =? INVALID_INDEX) eqn:E; cbn [opt fold_args]; [f_equal; f_equal; lia|].
    unfold live_arg at 1. eqs_eval. rewrite atoi_dec by lia.
    destruct (k_seg q >=? INVALID_INDEX) eqn:E2; [unfold INVALID_INDEX in *; lia | reflexivity]. }
  rewrite fold_args_app.
  assert (forall ch tl ids mask tm sg pt sk pd fl,
    fold_args params live_arg (opt (k_max_seg q =? INVALID_INDEX) (str "max_segment_index", dec (k_max_seg q))) (mk ch tl ids mask tm sg INVALID_INDEX pt sk pd fl)
    = Some (mk ch tl ids mask tm sg (k_max_seg q) pt sk pd fl)) as ->.
  { intros. unfold none in *. destruct (k_max_seg q =? INVALID_INDEX) eqn:E; cbn [opt fold_args]; [f_equal; f_equal; lia|].
    unfold live_arg at 1. eqs_eval. rewrite atoi_dec by lia. rewrite (u32_small (k_max_seg q)) by lia. reflexivity. }
  rewrite fold_args_app.
  assert (forall ch tl ids mask tm sg mx sk pd fl,
    fold_args params live_arg (opt (k_part q =? INVALID_INDEX) (str "part_index", dec (k_part q))) (mk ch tl ids mask tm sg mx INVALID_INDEX sk pd fl)
    = Some (mk ch tl ids mask tm sg mx (k_part q) sk pd fl)) as ->.
  { intros. unfold none in *. destruct (k_part q =? INVALID_INDEX) eqn:E; cbn [opt fold_args]; [f_equal; f_equal; lia|].
    unfold live_arg at 1. eqs_eval. rewrite atoi_dec by lia.
    destruct (k_part q >=? INVALID_INDEX) eqn:E2; [unfold INVALID_INDEX in *; lia | reflexivity]. }
  rewrite fold_args_app.
  assert (forall ch tl ids mask tm sg mx pt pd fl,
    fold_args params live_arg (opt (negb (k_skip q >? 0)) (str "skip_boundary_percent", dec (k_skip q))) (mk ch tl ids mask tm sg mx pt 0 pd fl)
    = Some (mk ch tl ids mask tm sg mx pt (k_skip q) pd fl)) as ->.
  { intros. destruct (k_skip q >? 0) eqn:E; cbn [negb opt fold_args]; [|f_equal; f_equal; lia].
    unfold live_arg at 1. eqs_eval. rewrite atoi_dec by lia. rewrite (u32_small (k_skip q)) by lia. reflexivity. }
  rewrite fold_args_app.
  assert (forall ch tl ids tm sg mx pt sk pd fl,
    fold_args params live_arg (opt (k_mask q =? 7) (str "media_type_mask", hex32 (k_mask q))) (mk ch tl ids 7 tm sg mx pt sk pd fl)
    = Some (mk ch tl ids (k_mask q) tm sg mx pt sk pd fl)) as ->.
  { intros. destruct (k_mask q =? 7) eqn:E; cbn [opt fold_args]; [f_equal; f_equal; lia|].
    unfold live_arg at 1. eqs_eval. rewrite hextoi_hex32 by lia. cbn [p_mask mk]. rewrite Z.land_comm, (land7 _ HM).
    destruct (k_mask q =? 0) eqn:E2; [lia | reflexivity]. }
  assert (forall ch tl ids mask tm sg mx pt sk fl,
    fold_args params live_arg (opt (k_padding q =? 0) (str "padding", dec_size (k_padding q))) (mk ch tl ids mask tm sg mx pt sk 0 fl)
    = Some (mk ch tl ids mask tm sg mx pt sk (k_padding q) fl)) as ->.
  { intros. destruct (k_padding q =? 0) eqn:E; cbn [opt fold_args]; [f_equal; f_equal; lia|].
    unfold live_arg at 1. eqs_eval. rewrite size_text by lia. rewrite atoi_dec_f by (unfold MAX_INT; lia). rewrite E.
    unfold MIN_PADDING, MAX_PADDING. destruct ((k_padding q <? 12) || (k_padding q >? 128)) eqn:E2; [lia | reflexivity]. }
  reflexivity.
Qed.

(* ----- the size *)
Lemma dec_f_len64 n : 0 <= n < 2 ^ 64 -> zlen (dec_f 20 n) <= 20.
Proof. intros H. apply dec_f_length; [|lia]. change (10 ^ 20) with 100000000000000000000. lia. Qed.
Lemma int64_len n : - 2 ^ 63 <= n < 2 ^ 63 -> zlen (dec_int64 n) <= 20.
Proof.
  intros H. unfold dec_int64. destruct (n <? 0) eqn:E; [|apply dec_f_len64; lia].
  assert (zlen (dec_f 20 (- n)) <= 19). { apply dec_f_length; [|lia]. change (10 ^ 19) with 10000000000000000000. lia. }
  unfold zlen in *. cbn [length]. lia.
Qed.
Lemma hex_len n : zlen (hex32 n) <= 8.
Proof. apply hex_f_len; [|lia]. change (16 ^ 8) with (2 ^ 32). unfold u32. apply Z.mod_pos_bound. lia. Qed.

Lemma request_len q : - 2 ^ 63 <= k_time q < 2 ^ 63 -> zlen (request_text q) <= request_size q.
Proof.
  intros HT. unfold request_text, request_size. rewrite !zlen_app, !escape_args_len.
  pose proof (hex_len (k_flags q)) as L1. pose proof (int64_len _ HT) as L2.
  pose proof (dec_length (k_seg q)) as L3. pose proof (dec_length (k_max_seg q)) as L4. pose proof (dec_length (k_part q)) as L5. pose proof (dec_length (k_skip q)) as L6.
  assert (zlen (dec_size (k_padding q)) <= 20) as L7. { unfold dec_size. apply dec_f_len64. unfold u64. apply Z.mod_pos_bound. lia. }
  assert (zlen match k_ids q with Some v => str "&variant_ids=" ++ escape_args v | None => [] end
    <= match k_ids q with Some v => zlen (str "&variant_ids=") + zlen v + 2 * escape_args_count v | None => 0 end) as L8.
  { destruct (k_ids q) as [v|]; [rewrite zlen_app, escape_args_len; lia | rewrite (@zlen_nil Z); lia]. }
  assert (zlen (let m := if Z.land (k_mask q) 7 =? 7 then 0 else Z.land (k_mask q) 7 in if m =? 0 then [] else str "&media_type_mask=" ++ hex32 m)
    <= if Z.land (k_mask q) 7 =? 7 then 0 else zlen (str "&media_type_mask=") + INT32_HEX_LEN) as L9.
  { cbv zeta. destruct (Z.land (k_mask q) 7 =? 7); [reflexivity|]. destruct (_ =? 0); [rewrite (@zlen_nil Z); vm_compute; congruence|].
    rewrite zlen_app. pose proof (hex_len (Z.land (k_mask q) 7)). unfold INT32_HEX_LEN. lia. }
  assert (zlen (if k_time q =? INVALID_TIME then [] else str "&time=" ++ dec_int64 (k_time q)) <= if k_time q =? INVALID_TIME then 0 else zlen (str "&time=") + INT64_LEN) as M1.
  { match goal with |- context [if ?b then [] else _] => destruct b end; [apply Z.le_refl | rewrite zlen_app; unfold INT64_LEN; lia]. }
  assert (zlen (if k_seg q =? INVALID_INDEX then [] else str "&segment_index=" ++ dec (k_seg q)) <= if k_seg q =? INVALID_INDEX then 0 else zlen (str "&segment_index=") + INT32_LEN) as M2.
  { match goal with |- context [if ?b then [] else _] => destruct b end; [apply Z.le_refl | rewrite zlen_app; unfold INT32_LEN; lia]. }
  assert (zlen (if k_max_seg q =? INVALID_INDEX then [] else str "&max_segment_index=" ++ dec (k_max_seg q)) <= if k_max_seg q =? INVALID_INDEX then 0 else zlen (str "&max_segment_index=") + INT32_LEN) as M3.
  { match goal with |- context [if ?b then [] else _] => destruct b end; [apply Z.le_refl | rewrite zlen_app; unfold INT32_LEN; lia]. }
  assert (zlen (if k_part q =? INVALID_INDEX then [] else str "&part_index=" ++ dec (k_part q)) <= if k_part q =? INVALID_INDEX then 0 else zlen (str "&part_index=") + INT32_LEN) as M4.
  { match goal with |- context [if ?b then [] else _] => destruct b end; [apply Z.le_refl | rewrite zlen_app; unfold INT32_LEN; lia]. }
  assert (zlen (if k_skip q >? 0 then str "&skip_boundary_percent=" ++ dec (k_skip q) else []) <= if k_skip q >? 0 then zlen (str "&skip_boundary_percent=") + INT32_LEN else 0) as M5.
  { destruct (k_skip q >? 0); [rewrite zlen_app; unfold INT32_LEN; lia | apply Z.le_refl]. }
  assert (zlen (if k_padding q =? 0 then [] else str "&padding=" ++ dec_size (k_padding q)) <= if k_padding q =? 0 then 0 else zlen (str "&padding=") + SIZE_T_LEN) as M6.
  { match goal with |- context [if ?b then [] else _] => destruct b end; [apply Z.le_refl | rewrite zlen_app; unfold SIZE_T_LEN; lia]. }
  unfold INT32_HEX_LEN in *. lia.
Qed.

(* ----- the ids *)
Lemma ids_one id : forall cur, ~ In 45 id -> ids_loop cur id = [cur ++ id].
Proof.
  induction id as [|c id IH]; intros cur N; [cbn; rewrite app_nil_r; reflexivity|]. cbn [ids_loop].
  destruct (c =? 45) eqn:E; [exfalso; apply N; left; lia|]. rewrite IH by (intros H; apply N; right; exact H). rewrite <- app_assoc. reflexivity.
Qed.
Lemma ids_count_ok l : forall cur, zlen (ids_loop cur l) = ids_count l.
Proof.
  unfold ids_count. induction l as [|c l IH]; intros cur; [reflexivity|]. cbn [ids_loop filter]. destruct (c =? 45).
  - specialize (IH []). unfold zlen in *. cbn [length]. lia.
  - apply IH.
Qed.
