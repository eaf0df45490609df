From Coq Require Import List ZArith Bool Lia ZifyBool ZifyNat.
From Verif Require Import JsonModel JsonSpec JsonProofs JsonParse JsonDecode JsonPrettyModel JsonPrettySpec JsonPrettyProofs.
Import ListNotations.
Local Open Scope Z_scope.

Lemma skip_head : forall c r, ~ ws_char c -> skip_spaces (c :: r) = Some (c :: r).
Proof. intros c r H. apply (skip_ws [] c r); [constructor|auto]. Qed.

(* --- C33 --- *)
(* any memory that ends with a NUL: nothing beyond it is read, no number overflows,
   and the parser ends *)
Theorem C33_safe : forall s, json_parse (s ++ [0]) = JBad \/ exists v r, json_parse (s ++ [0]) = JOk v r.
Proof.
  intros s. assert (Ht : term (s ++ [0])) by now exists s. unfold json_parse.
  destruct (skip_term _ Ht) as (c & r & -> & Ht' & _ & _).
  destruct (good_all (3 * length (c :: r) + 1)) as [Hv _].
  pose proof (Hv O (c :: r) (le_n _) Ht') as Hg.
  destruct (parse_value _ _ (c :: r)) as [v s1| | |]; cbn [good] in Hg; try contradiction; [|now left].
  cbn [jbind]. unfold skip_peek. destruct Hg as [Ht1 _].
  destruct (skip_term _ Ht1) as (c2 & r2 & -> & _). destruct (c2 =? 0); [right; eauto|now left].
Qed.
Print Assumptions C33_safe.

(* exactly the documents of the grammar are accepted, with their meaning *)
Theorem C33_parse : forall s v, ~ In 0 s -> (json_parse (s ++ [0]) = JOk v [0] <-> document s v).
Proof.
  intros s v H0. split.
  - unfold json_parse. intros H. destruct (skip_spaces (s ++ [0])) as [s1|] eqn:Es; [|discriminate].
    destruct (skip_inv _ _ Es) as (w & c & r & Hw & E & -> & Hc).
    apply bind_inv in H as (v' & s2 & Hv & H).
    destruct (sound_all (3 * length (c :: r) + 1)) as [Hs _].
    destruct (Hs _ _ _ _ Hv) as (t & Et & Hval).
    apply peek_inv in H as (w2 & c2 & r2 & Hw2 & Hc2 & -> & H). destruct (c2 =? 0) eqn:E2; [|discriminate].
    injection H as <- -> ->. exists w, t, w2. repeat split; auto.
    rewrite Et in E. apply app_inv_tail with (l := [0]). rewrite E. now rewrite <- !app_assoc.
  - intros (w1 & t & w2 & Hw1 & Hv & Hw2 & ->). unfold json_parse.
    destruct head_all as (Hh & _). destruct (Hh _ _ _ Hv) as (c & [r Er] & Hc & _).
    rewrite <- !app_assoc. rewrite Er. cbn [app]. rewrite skip_ws by auto.
    destruct complete_all as (Hcv & _).
    change (c :: r ++ w2 ++ [0]) with ((c :: r) ++ w2 ++ [0]). rewrite <- Er.
    rewrite (Hcv _ _ _ Hv); [|rewrite app_length; lia|apply delim_ws; auto]. cbn [jbind].
    rewrite peek_ws; auto. unfold ws_char; cbn [In]; lia.
Qed.
Print Assumptions C33_parse.

(* [ {"Id" : -12.5} ,{"b\n":[true, false]} ] *)
Example C33_example : document
  ([91; 32] ++ [123; 34; 73; 100; 34; 32; 58; 32; 45; 49; 50; 46; 53; 125]
     ++ [32; 44; 123; 34; 98; 92; 110; 34; 58; 91; 116; 114; 117; 101; 44; 32; 102; 97; 108; 115; 101; 93; 125; 32; 93])
  (VArr (Some TObj) [VObj [(([105; 100], 3355), VFrac (-125) 10)];
                     VObj [(([98; 92; 110], 3130), VArr (Some TBool) [VBool true; VBool false])]]).
Proof. apply C33_parse; [cbn; intuition lia|]. vm_compute. reflexivity. Qed.

Lemma max_fold_le : forall A (f : A -> nat) l n, Forall (fun a => (f a <= n)%nat) l ->
  (fold_right (fun a m => Nat.max (f a) m) O l <= n)%nat.
Proof. induction 1; cbn; lia. Qed.
Lemma all_fold : forall A (P : A -> Prop) l, Forall P l -> fold_right (fun a Q => P a /\ Q) True l.
Proof. induction 1; cbn; auto. Qed.
Lemma limits_all :
  (forall d t v, value d t v -> (depth_of v + d <= Nat.max 32 d)%nat /\ small v) /\
  (forall d t v, array d t v -> (depth_of v + d <= Nat.max 32 d)%nat /\ small v) /\
  (forall d ty t vs, items d ty t vs -> Forall (fun v => (depth_of v + d <= Nat.max 32 d)%nat /\ small v) vs) /\
  (forall d ty t v, element d ty t v -> (depth_of v + d <= Nat.max 32 d)%nat /\ small v) /\
  (forall d t v, object d t v -> (depth_of v + d <= Nat.max 32 d)%nat /\ small v) /\
  (forall d t kvs, members d t kvs -> Forall (fun kv => (depth_of (snd kv) + d <= Nat.max 32 d)%nat /\ small (snd kv)) kvs) /\
  (forall d t k v, member d t k v -> (depth_of v + d <= Nat.max 32 d)%nat /\ small v).
Proof.
  apply json_ind; intros; auto; try (split; [cbn [depth_of]; lia|exact Logic.I]).
  - split; [cbn [depth_of]; lia|cbn; lia].
  - split; cbn [depth_of small].
    + assert (Hm : (fold_right (fun v m => Nat.max (depth_of v) m) O vs <= 32 - S d)%nat).
      { apply max_fold_le. eapply Forall_impl; [|exact H2]. cbv beta. intros a [Ha _]. lia. }
      lia.
    + split; auto. apply all_fold. eapply Forall_impl; [|exact H2]. cbn. tauto.
  - split; [cbn [depth_of]; lia|cbn; lia].
  - split; cbn [small].
    + assert (Hm : (fold_right (fun kv m => Nat.max (depth_of (snd kv)) m) O kvs <= 32 - S d)%nat).
      { apply (max_fold_le _ (fun kv => depth_of (snd kv))). eapply Forall_impl; [|exact H2]. cbv beta. intros a [Ha _]. lia. }
      destruct kvs as [|[k v] kvs]; cbn [depth_of]; [lia|]. cbn [fold_right snd] in *. lia.
    + split; auto. apply (all_fold _ (fun kv => small (snd kv))). eapply Forall_impl; [|exact H2]. cbn. tauto.
Qed.

(* what is accepted is within the limits *)
Theorem C33_limits : forall s v, ~ In 0 s -> json_parse (s ++ [0]) = JOk v [0] -> (depth_of v <= 32)%nat /\ small v.
Proof.
  intros s v H0 H. apply C33_parse in H as (w1 & t & w2 & _ & Hv & _ & _); auto.
  destruct limits_all as [Hl _]. destruct (Hl _ _ _ Hv) as [Hd Hs]. split; auto. lia.
Qed.
Print Assumptions C33_limits.

Lemma deep_bad : forall k n d x, (3 * k <= n)%nat -> (1 <= k)%nat -> (32 < d + k)%nat ->
  parse_elem n TArr d (repeat 91 k ++ 49 :: x) = JBad \/ (parse_elem n TArr d (repeat 91 k ++ 49 :: x) = JFuel).
Proof.
  induction k as [|k IH]; intros n d x Hn Hk Hd; [lia|].
  destruct n as [|[|[|n]]]; try lia. cbn [repeat app parse_elem Z.eqb Pos.eqb].
  remember (S n) as m eqn:Em. cbn [parse_array].
  assert (Hh : exists c r, repeat 91 k ++ 49 :: x = c :: r /\ ~ ws_char c /\ (c =? 93) = false /\ (k = O \/ c = 91)).
  { destruct k; cbn; eexists _, _; (split; [reflexivity|]); unfold ws_char; cbn [In]; repeat split; auto; lia. }
  destruct Hh as (c & r & E & Hc & H93 & Hk'). rewrite E.
  unfold skip_peek. rewrite (skip_head c r) by auto. rewrite H93.
  destruct (Nat.leb max_depth d) eqn:El; [now left|]. apply Nat.leb_gt in El. unfold max_depth in El.
  destruct Hk' as [-> | ->]; [lia|]. cbn [value_type Z.eqb Pos.eqb jbind].
  subst m. cbn [parse_items]. replace (0 >=? max_elements) with false by reflexivity.
  rewrite <- E. destruct k as [|k]; [discriminate|].
  destruct (IH n (S d) x) as [-> | ->]; try lia; auto.
Qed.

(* more than 32 brackets are refused *)
Theorem C33_deep : forall n, (32 < n)%nat -> json_parse ((repeat 91 n ++ [49] ++ repeat 93 n) ++ [0]) = JBad.
Proof.
  intros n Hn. destruct (C33_safe (repeat 91 n ++ [49] ++ repeat 93 n)) as [H|(v & r & H)]; auto. exfalso.
  destruct n as [|n]; [lia|]. cbn [repeat app] in H. unfold json_parse in H.
  rewrite (skip_head 91) in H by (unfold ws_char; cbn [In]; lia).
  apply bind_inv in H as (v' & s2 & Hv & _).
  set (s := (repeat 91 n ++ 49 :: 93 :: repeat 93 n) ++ [0]) in *.
  set (N := length (91 :: s)) in *. replace (3 * N + 1)%nat with (S (3 * N)) in Hv by lia.
  cbn [parse_value Z.eqb Pos.eqb] in Hv.
  destruct (deep_bad (S n) (S (3 * N)) 0 (93 :: repeat 93 n ++ [0])) as [Hb|Hb]; try lia.
  - unfold N. cbn [length]. unfold s. rewrite !app_length, repeat_length. lia.
  - cbn [repeat app parse_elem Z.eqb Pos.eqb] in Hb. unfold s in Hv. rewrite <- app_assoc in Hv. cbn [app] in Hv. congruence.
  - cbn [repeat app parse_elem Z.eqb Pos.eqb] in Hb. unfold s in Hv. rewrite <- app_assoc in Hv. cbn [app] in Hv. congruence.
Qed.
Print Assumptions C33_deep.
Example C33_deep_ok : exists v, json_parse ((repeat 91 32 ++ [49] ++ repeat 93 32) ++ [0]) = JOk v [0] /\ depth_of v = 32%nat.
Proof. eexists. vm_compute. split; reflexivity. Qed.

(* --- C34 --- *)
Lemma fits_max : forall ds, fits ds <-> decimal ds <= 9223372036854775799.
Proof.
  intros ds. unfold fits. split; intros H.
  - pose proof (Z.mod_pos_bound (decimal ds) 10 ltac:(lia)). pose proof (Z.div_mod (decimal ds) 10 ltac:(lia)). lia.
  - apply Z.lt_succ_r. apply Z.div_lt_upper_bound; lia.
Qed.

Lemma frac_loop_refuse : forall fs v k rest, fs <> [] -> digits fs -> 0 <= v -> (k <= 19)%nat -> nondigit_head rest ->
  922337203685477579 < dfold v fs / 10 \/ (19 < k + length fs)%nat -> frac_loop (fs ++ rest) v (p10 k) = JBad.
Proof.
  induction fs as [|c fs IH]; intros v k rest Hne Hd Hv Hk Hr Hf; [congruence|].
  cbn [app frac_loop]. rewrite lm10, um10.
  destruct ((v >? 922337203685477579) || (p10 k >? 1844674407370955161)) eqn:E; [reflexivity|]. cbn zeta.
  inversion Hd; subst.
  destruct (v * 10 + (c - 48) >? llong_max) eqn:E2; [unfold llong_max in E2; lia|].
  assert (Hk18 : (k <= 18)%nat).
  { destruct (Nat.eq_dec k 19) as [->|]; [|lia]. change (p10 19) with 10000000000000000000 in E. lia. }
  assert (Hp : p10 k <= p10 18) by (apply p10_le; lia). change (p10 18) with 1000000000000000000 in Hp.
  pose proof (p10_pos k) as Hp0.
  rewrite Z.mod_small by lia. rewrite <- p10_S.
  destruct fs as [|c' fs].
  - exfalso. cbn [length] in Hf. destruct Hf as [Hf|Hf]; [|lia].
    change (dfold v [c]) with (v * 10 + (c - 48)) in Hf.
    assert ((v * 10 + (c - 48)) / 10 < 922337203685477580) by (apply Z.div_lt_upper_bound; lia). lia.
  - cbn [app]. inversion H2; subst. destruct (isdigit c') eqn:E3; [|apply digits_ok in H3; congruence].
    change (c' :: fs ++ rest) with ((c' :: fs) ++ rest). apply IH; auto; [discriminate|lia|lia|].
    destruct Hf as [Hf|Hf]; [left; exact Hf|right; cbn [length] in *; lia].
Qed.
Lemma parse_number : forall neg ds x, ds <> [] -> digits ds ->
  json_parse (minus neg ++ ds ++ x ++ [0])
    = jbind (jbind (parse_fraction (minus neg ++ ds ++ x ++ [0]))
         (fun nd rest => JOk (if snd nd =? 1 then VInt (fst nd) else VFrac (fst nd) (snd nd)) rest))
         (fun v s => skip_peek s (fun c r => if c =? 0 then JOk v (c :: r) else JBad)).
Proof.
  intros neg ds x Hne Hd. unfold json_parse.
  destruct (num_head_app neg ds (x ++ [0]) Hne Hd) as (c & [r E] & Hc). pose proof E as E'. rewrite E.
  rewrite (skip_head c r) by (unfold ws_char; cbn [In]; lia).
  replace (3 * length (c :: r) + 1)%nat with (S (3 * length (c :: r))) by lia. cbn [parse_value].
  replace (c =? 34) with false by lia. replace (c =? 91) with false by lia. replace (c =? 123) with false by lia.
  replace (c =? 110) with false by lia. replace (c =? 116) with false by lia. replace (c =? 102) with false by lia.
  reflexivity.
Qed.

(* an integer is the number written, or refused *)
Theorem C34_int : forall neg ds, ds <> [] -> digits ds ->
  json_parse (minus neg ++ ds ++ [0])
  = if decimal ds <=? 9223372036854775799 then JOk (VInt (signed neg (decimal ds))) [0] else JBad.
Proof.
  intros neg ds Hne Hd. pose proof (parse_number neg ds [] Hne Hd) as HP. cbn [app] in HP. rewrite HP.
  assert (Hz : delim [0]) by (exists 0, []; auto 10).
  destruct (decimal ds <=? 9223372036854775799) eqn:E.
  - rewrite parse_fraction_whole; auto. apply fits_max. lia.
  - unfold parse_fraction. rewrite parse_int_refuse; auto using delim_nondigit. rewrite fits_max. lia.
Qed.
Print Assumptions C34_int.

(* a decimal fraction is the number written, over a power of ten, or refused *)
Theorem C34_fraction : forall neg ds fs, ds <> [] -> digits ds -> fs <> [] -> digits fs ->
  let denom := 10 ^ Z.of_nat (length fs) in
  let num := decimal ds * denom + decimal fs in
  json_parse (minus neg ++ ds ++ (46 :: fs) ++ [0])
  = if (num <=? 9223372036854775799) && (length fs <=? 19)%nat then JOk (VFrac (signed neg num) denom) [0] else JBad.
Proof.
  intros neg ds fs Hne Hd Hfn Hfd denom num. rewrite parse_number by auto.
  assert (Hz : nondigit_head [0]) by (exists 0, []; split; auto; lia).
  assert (En : num = decimal (ds ++ fs)) by (unfold num, denom; now rewrite decimal_app).
  assert (Hg : 0 <= decimal ds) by (apply (dfold_ge ds 0); auto; lia).
  rewrite En. cbn [app].
  destruct ((decimal (ds ++ fs) <=? 9223372036854775799) && (length fs <=? 19)%nat) eqn:E.
  - rewrite parse_fraction_ok; auto; [|apply fits_max; lia|lia]. cbn [jbind fst snd]. unfold p10.
    destruct fs as [|f fs]; [congruence|]. rewrite (p10_ne1 (length (f :: fs))) by (cbn [length]; lia). reflexivity.
  - unfold parse_fraction.
    assert (Hdot : nondigit_head (46 :: fs ++ [0])) by (exists 46, (fs ++ [0]); split; auto; lia).
    destruct (Z_le_dec (decimal ds) 9223372036854775799) as [Hle|Hgt].
    + rewrite parse_int_ok; auto; [|now apply fits_max]. cbn zeta. cbn [Z.eqb Pos.eqb].
      destruct fs as [|c fs]; [congruence|]. cbn [app]. inversion Hfd; subst.
      destruct (isdigit c) eqn:Ec; [|apply digits_ok in H1; congruence].
      change (c :: fs ++ [0]) with ((c :: fs) ++ [0]). change 1 with (p10 0). rewrite frac_loop_refuse; auto; [lia|].
      destruct (Z_le_dec (decimal (ds ++ c :: fs)) 9223372036854775799) as [Hle2|Hgt2]; [right; lia|left].
      rewrite <- decimal_dfold. apply Znot_le_gt in Hgt2. apply Z.gt_lt. apply Znot_le_gt. intros Hc. apply fits_max in Hc. lia.
    + rewrite parse_int_refuse; auto. rewrite fits_max. lia.
Qed.
Print Assumptions C34_fraction.
(* -0.0625 and 922337203685477579.9 *)
Example C34_example : json_parse [45; 48; 46; 48; 54; 50; 53; 0] = JOk (VFrac (-625) 10000) [0]
  /\ json_parse [57; 50; 50; 51; 51; 55; 50; 48; 51; 54; 56; 53; 52; 55; 55; 53; 55; 57; 46; 57; 0] = JOk (VFrac 9223372036854775799 10) [0].
Proof. vm_compute. split; reflexivity. Qed.
(* numbers from 9223372036854775800 to 9223372036854775807 fit but are refused *)
Example C34_near_max : json_parse [57; 50; 50; 51; 51; 55; 50; 48; 51; 54; 56; 53; 52; 55; 55; 53; 56; 48; 48; 0] = JBad.
Proof. vm_compute. reflexivity. Qed.

(* --- C35 --- *)
(* decoding in place: the string [raw] at its place in memory becomes its meaning,
   not longer, and nothing outside of it changes; a string without meaning is
   refused; no access is outside of the memory *)
Theorem C35_in_place : forall pre raw post,
  (exists out junk, decodes raw out /\ (length out + length junk = length raw)%nat /\
     get_string (pre ++ raw ++ post) (length pre) (length raw) true = DOk (pre ++ out ++ junk ++ post) (length out)) \/
  ((forall out, ~ decodes raw out) /\
     get_string (pre ++ raw ++ post) (length pre) (length raw) true = DBad).
Proof.
  intros pre raw post. unfold get_string, decode_string.
  destruct (decode_loop_ok (length raw) pre [] raw post (length pre) (length pre + length raw)) as
    [(out & junk & Hd & _ & _ & Hlen & E)|[Hno E]]; try (cbn [length]; lia).
  - left. exists out, junk. cbn [app] in E. rewrite E. split; auto. split; [cbn [length] in Hlen; lia|]. f_equal. lia.
  - right. cbn [app] in E. now rewrite E.
Qed.
Print Assumptions C35_in_place.

(* the meaning is unique *)
Theorem C35_unique : forall raw a b, decodes raw a -> decodes raw b -> a = b.
Proof.
  intros raw a b Ha Hb.
  destruct (decode_loop_ok (length raw) [] [] raw [] 0 (length raw)) as
    [(out & junk & Hd & Hu & _)|[Hno _]]; try reflexivity.
  - rewrite (Hu _ Ha). symmetry. now apply Hu.
  - exfalso. exact (Hno _ Ha).
Qed.
Print Assumptions C35_unique.

(* a string that the parser reports without escapes is its meaning *)
Theorem C35_plain : forall raw, chars raw false -> decodes raw raw.
Proof.
  intros raw H. remember false as e eqn:E. induction H as [|c s e H0 H34 H92 H IH|c s e H0 H IH]; [constructor| |discriminate].
  change (c :: s) with ([c] ++ s). constructor; auto. now constructor.
Qed.
Print Assumptions C35_plain.

(* escaping a byte string as JSON texts usually do: short escapes, \u00xx for other
   control characters, the rest verbatim *)
Definition hex (v : Z) : Z := if v <? 10 then 48 + v else 87 + v.
Definition escape_byte (b : Z) : list Z :=
  if b =? 34 then [92; 34]
  else if b =? 92 then [92; 92]
  else if b =? 10 then [92; 110]
  else if b =? 13 then [92; 114]
  else if b =? 9 then [92; 116]
  else if b =? 8 then [92; 98]
  else if b =? 12 then [92; 102]
  else if b <? 32 then [92; 117; 48; 48; hex (b / 16); hex (b mod 16)]
  else [b].
Definition escape (bs : list Z) : list Z := flat_map escape_byte bs.

Lemma escape_piece : forall b, 0 <= b < 256 -> piece (escape_byte b) [b].
Proof.
  intros b Hb. unfold escape_byte.
  destruct (b =? 34) eqn:E1; [assert (b = 34) as -> by lia; constructor; cbn; auto|].
  destruct (b =? 92) eqn:E2; [assert (b = 92) as -> by lia; constructor; cbn; auto|].
  destruct (b =? 10) eqn:E3; [assert (b = 10) as -> by lia; constructor; cbn; auto 10|].
  destruct (b =? 13) eqn:E4; [assert (b = 13) as -> by lia; constructor; cbn; auto 10|].
  destruct (b =? 9) eqn:E5; [assert (b = 9) as -> by lia; constructor; cbn; auto 12|].
  destruct (b =? 8) eqn:E6; [assert (b = 8) as -> by lia; constructor; cbn; auto 10|].
  destruct (b =? 12) eqn:E7; [assert (b = 12) as -> by lia; constructor; cbn; auto 10|].
  destruct (b <? 32) eqn:E8; [|constructor; lia].
  pose proof (Z.mod_pos_bound b 16 ltac:(lia)). pose proof (Z.div_mod b 16 ltac:(lia)).
  apply p_unicode with 0 0 (b / 16) (b mod 16); unfold hex_char, hex.
  - left. lia.
  - left. lia.
  - assert (0 <= b / 16 < 2) by lia. destruct (b / 16 <? 10) eqn:E; lia.
  - destruct (b mod 16 <? 10) eqn:E; lia.
  - replace (0 * 4096 + 0 * 256 + b / 16 * 16 + b mod 16) with b by lia. constructor. lia.
Qed.
Lemma escape_decodes : forall bs, Forall (fun b => 0 <= b < 256) bs -> decodes (escape bs) bs.
Proof.
  induction bs as [|b bs IH]; intros H; [constructor|]. inversion H; subst. cbn [escape flat_map].
  change (b :: bs) with ([b] ++ bs). constructor; [now apply escape_piece|auto].
Qed.
Lemma chars_plain_app : forall a s e, Forall (fun c => c <> 0 /\ c <> 34 /\ c <> 92) a -> chars s e -> chars (a ++ s) e.
Proof. induction a as [|c a IH]; intros s e H Hs; auto. inversion H; subst. cbn. constructor; try tauto. auto. Qed.
Lemma escape_chars : forall bs, Forall (fun b => 0 <= b < 256) bs -> exists e, chars (escape bs) e.
Proof.
  induction bs as [|b bs IH]; intros H; [exists false; constructor|]. inversion H; subst. destruct (IH H3) as [e He].
  cbn [escape flat_map]. fold (escape bs). unfold escape_byte.
  repeat match goal with |- context [if ?x =? ?y then [92; ?z] else _] =>
    destruct (x =? y) eqn:?; [exists true; cbn [app]; apply chars_escape with e; auto; lia|] end.
  destruct (b <? 32) eqn:E8.
  - exists true. change ([92; 117; 48; 48; hex (b / 16); hex (b mod 16)] ++ escape bs)
      with (92 :: 117 :: [48; 48; hex (b / 16); hex (b mod 16)] ++ escape bs).
    apply chars_escape with e; [lia|]. apply chars_plain_app; auto.
    pose proof (Z.mod_pos_bound b 16 ltac:(lia)). assert (0 <= b / 16 < 2) by lia.
    assert (Hh : forall v, 0 <= v < 16 -> hex v <> 0 /\ hex v <> 34 /\ hex v <> 92).
    { intros v Hv. unfold hex. destruct (v <? 10) eqn:?; lia. }
    repeat constructor; try lia; apply Hh; lia.
  - exists e. apply chars_plain_app; auto. repeat constructor; lia.
Qed.

(* a byte string that is escaped, parsed and unescaped in place is itself again *)
Theorem C35_roundtrip : forall bs post, Forall (fun b => 0 <= b < 256) bs -> exists e,
  json_parse (34 :: escape bs ++ 34 :: [0]) = JOk (VStr e (escape bs)) [0] /\
  exists junk, get_string (34 :: escape bs ++ post) 1 (length (escape bs)) e = DOk (34 :: bs ++ junk ++ post) (length bs).
Proof.
  intros bs post H. destruct (escape_chars bs H) as [e He]. exists e. split.
  - unfold json_parse. rewrite (skip_head 34) by (unfold ws_char; cbn [In]; lia).
    match goal with |- context [parse_value ?n _ _] => replace n with (S (pred n)) by (cbn [length]; lia) end.
    cbn [parse_value Z.eqb Pos.eqb]. rewrite (parse_string_ok _ _ He). reflexivity.
  - destruct e.
    + destruct (C35_in_place [34] (escape bs) post) as [(out & junk & Hd & Hl & E)|[Hno _]].
      * exists junk. pose proof (C35_unique _ _ _ Hd (escape_decodes bs H)) as Eo. subst out. exact E.
      * exfalso. exact (Hno _ (escape_decodes bs H)).
    + exists []. rewrite (C35_unique _ _ _ (C35_plain _ He) (escape_decodes bs H)). reflexivity.
Qed.
Print Assumptions C35_roundtrip.
Example C35_example : escape [104; 10; 34; 1; 195] = [104; 92; 110; 92; 34; 92; 117; 48; 48; 48; 49; 195]
  /\ get_string (escape [104; 10; 34; 1; 195] ++ [7; 7]) 0 12 true
     = DOk [104; 10; 34; 1; 195; 92; 117; 48; 48; 48; 49; 195; 7; 7] 5.
Proof. vm_compute. split; reflexivity. Qed.

(* A code point beyond 2^16 is written as two \u escapes; each half is encoded alone,
   which is not the encoding of the code point and not UTF-8: 😀 *)
Theorem C35_surrogate_refuted :
  get_string [92; 117; 100; 56; 51; 100; 92; 117; 100; 101; 48; 48] 0 12 true
    = DOk [237; 160; 189; 237; 184; 128; 92; 117; 100; 101; 48; 48] 6
  /\ [237; 160; 189; 237; 184; 128] <> [240; 159; 152; 128].
Proof. split; [vm_compute; reflexivity|discriminate]. Qed.
Print Assumptions C35_surrogate_refuted.

(* --- C36 --- *)
(* any text: the size is that of the bytes; the buffers are full but for the last *)
Theorem C36_size : forall json level, exists bufs size, pretty json level = Some (bufs, size)
  /\ size = Z.of_nat (length (concat bufs))
  /\ exists full cur, bufs = full ++ [cur] /\ Forall (fun b => length b = 1024%nat) full /\ (length cur <= 1024)%nat.
Proof. exact pretty_size. Qed.
Print Assumptions C36_size.

(* a text in which no literal starts within a word: only white space outside of
   literals changes, and the literals are the same *)
Theorem C36_text_partial : forall json level, tidy Start json = true ->
  exists bufs size, pretty json level = Some (bufs, size)
    /\ strip Out (concat bufs) = strip Out json
    /\ literals Out [] (concat bufs) = literals Out [] json.
Proof.
  intros json level H. destruct (pretty_ok json level H) as (bufs & size & E & Hs & _).
  exists bufs, size. repeat split; auto. rewrite literals_strip, Hs, <- literals_strip. reflexivity.
Qed.
Print Assumptions C36_text_partial.

(* any document that the parser accepts and that has no \v and \f *)
Theorem C36_document : forall json v level, document json v -> ~ In 11 json -> ~ In 12 json ->
  exists bufs size, pretty json level = Some (bufs, size)
    /\ strip Out (concat bufs) = strip Out json
    /\ literals Out [] (concat bufs) = literals Out [] json.
Proof. intros json v level H H11 H12. apply C36_text_partial. eapply document_tidy; eauto. now split. Qed.
Print Assumptions C36_document.
(* {"a b":[1,2]} *)
Example C36_example : exists bufs, pretty [123; 34; 97; 32; 98; 34; 58; 91; 49; 44; 50; 93; 125] 0 = Some (bufs, 43)
  /\ literals Out [] (concat bufs) = [[34; 97; 32; 98; 34]].
Proof. eexists. vm_compute. split; reflexivity. Qed.

(* A text that is not JSON: a"b c" loses the space in its literal. *)
Theorem C36_text_refuted : exists json level bufs size, pretty json level = Some (bufs, size)
  /\ literals Out [] (concat bufs) <> literals Out [] json.
Proof.
  exists [97; 34; 98; 32; 99; 34], 0. eexists _, _. split; [vm_compute; reflexivity|]. vm_compute. discriminate.
Qed.
Print Assumptions C36_text_refuted.

(* Even a text that the parser accepts: a vertical tab before a literal makes the
   printer change the literal: {"a":\v"b c"} *)
Theorem C36_vtab_refuted : exists json v bufs size, document json v /\ pretty json 0 = Some (bufs, size)
  /\ literals Out [] (concat bufs) <> literals Out [] json.
Proof.
  exists [123; 34; 97; 34; 58; 11; 34; 98; 32; 99; 34; 125]. eexists. eexists _, _. split; [|split].
  - apply C33_parse; [cbn; intuition lia|]. vm_compute. reflexivity.
  - vm_compute. reflexivity.
  - vm_compute. discriminate.
Qed.
Print Assumptions C36_vtab_refuted.
