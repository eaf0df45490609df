(* The request of the packager and the query parser of the live server. *)
From Coq Require Import String Ascii ZArith List Bool Lia ZifyBool.
From Verif Require Import Bytes M3u8Model M3u8Spec M3u8Proofs M3u8Proofs7 M3u8Proofs9 UriModel UriSpec UriProofs.
Import ListNotations.
Open Scope Z_scope.

(* ----- escaping *)
Lemma hex_value_char d : 0 <= d < 16 -> hex_value (hex_char d) = Some d.
Proof.
  intros H. assert (d = 0 \/ d = 1 \/ d = 2 \/ d = 3 \/ d = 4 \/ d = 5 \/ d = 6 \/ d = 7 \/ d = 8 \/ d = 9 \/ d = 10 \/ d = 11 \/ d = 12 \/ d = 13 \/ d = 14 \/ d = 15) as E by lia.
  repeat (destruct E as [->|E]; [reflexivity|]). subst. reflexivity.
Qed.
Lemma hex_value_lower d : 0 <= d < 16 -> hex_value (lower_hex d) = Some d.
Proof.
  intros H. assert (d = 0 \/ d = 1 \/ d = 2 \/ d = 3 \/ d = 4 \/ d = 5 \/ d = 6 \/ d = 7 \/ d = 8 \/ d = 9 \/ d = 10 \/ d = 11 \/ d = 12 \/ d = 13 \/ d = 14 \/ d = 15) as E by lia.
  repeat (destruct E as [->|E]; [reflexivity|]). subst. reflexivity.
Qed.

Lemma unescape_args l : forall r, Forall is_byte l -> unescape_go Usual (escape_args l ++ r) = l ++ unescape_go Usual r.
Proof.
  induction l as [|c l IH]; intros r H; [reflexivity|]. inversion H as [|? ? B H']; subst.
  unfold escape_args. cbn [flat_map]. fold (escape_args l). destruct (args_plain c) eqn:P.
  - cbn [app unescape_go]. destruct (c =? 37) eqn:E; [unfold args_plain in P; lia|]. f_equal. apply IH. exact H'.
  - unfold is_byte in B. cbn [hex_string flat_map app]. cbn [unescape_go]. rewrite Z.eqb_refl. rewrite hex_value_char by lia. rewrite hex_value_char by lia.
    cbn [app]. f_equal; [|apply IH; exact H']. replace (c / 16 * 16 + c mod 16) with c by lia. apply Z.mod_small. lia.
Qed.
Lemma unescape_all l : Forall is_byte l -> unescape (escape_args l) = l.
Proof. intros H. unfold unescape. rewrite <- (app_nil_r (escape_args l)), unescape_args by exact H. cbn [unescape_go]. apply app_nil_r. Qed.

Definition quiet (c : Z) : Prop := c <> 0 /\ c <> 38 /\ c <> 43.
Lemma hex_char_range d : 0 <= d < 16 -> 48 <= hex_char d <= 70.
Proof. intros H. unfold hex_char. destruct (d <? 10) eqn:E; lia. Qed.
Lemma escape_quiet l : Forall is_byte l -> Forall quiet (escape_args l).
Proof.
  induction l as [|c l IH]; intros H; [apply Forall_nil|]. inversion H as [|? ? B H']; subst. unfold is_byte in B.
  unfold escape_args. cbn [flat_map]. fold (escape_args l). apply Forall_app. split; [|apply IH; exact H'].
  destruct (args_plain c) eqn:P.
  - apply Forall_cons; [|apply Forall_nil]. unfold args_plain in P. unfold quiet. lia.
  - cbn [hex_string flat_map app]. pose proof (hex_char_range (c / 16)). pose proof (hex_char_range (c mod 16)).
    apply Forall_cons; [unfold quiet; lia|]. apply Forall_cons; [unfold quiet; lia|]. apply Forall_cons; [unfold quiet; lia | apply Forall_nil].
Qed.
Lemma escape_same l : Forall is_byte l -> existsb (Z.eqb 37) (escape_args l) = false -> escape_args l = l.
Proof.
  induction l as [|c l IH]; intros H; [reflexivity|]. inversion H as [|? ? B H']; subst.
  unfold escape_args. cbn [flat_map]. fold (escape_args l). rewrite existsb_app. intros E. apply orb_false_iff in E. destruct E as [E1 E2].
  destruct (args_plain c); [cbn [app]; f_equal; apply IH; assumption | discriminate].
Qed.
Lemma escape_plain_text l : Forall (fun c => args_plain c = true) l -> escape_args l = l.
Proof. induction l as [|c l IH]; intros H; [reflexivity|]. inversion H; subst. unfold escape_args. cbn [flat_map]. rewrite H2. cbn [app]. f_equal. apply IH. assumption. Qed.
Lemma escape_args_len l : zlen (escape_args l) = zlen l + 2 * escape_args_count l.
Proof.
  unfold escape_args, escape_args_count. induction l as [|a l IH]; [reflexivity|]. cbn [flat_map filter]. rewrite zlen_app, IH.
  destruct (args_plain a); cbn [negb hex_string flat_map app]; unfold zlen; cbn [length]; lia.
Qed.

(* ----- the loop *)
Section Loop.
  Variable S : Type.
  Variable h : list Z -> list Z -> S -> option S.

  Definition plain_key (k : list Z) : Prop := k <> [] /\ Forall (fun c => args_plain c = true /\ c <> 61) k.

  Lemma loop_key k : forall cur r s, Forall (fun c => args_plain c = true /\ c <> 61) k ->
    args_loop h [] cur false (k ++ r) s = args_loop h [] (cur ++ k) false r s.
  Proof.
    induction k as [|c k IH]; intros cur r s H; [cbn [app]; rewrite app_nil_r; reflexivity|]. inversion H as [|? ? [A B] H']; subst.
    cbn [app args_loop]. unfold args_plain in A.
    destruct (c =? 0) eqn:E0; [lia|]. destruct (c =? 61) eqn:E1; [lia|]. destruct (c =? 38) eqn:E2; [lia|]. destruct (c =? 43) eqn:E3; [lia|]. destruct (c =? 37) eqn:E4; [lia|].
    rewrite IH by exact H'. rewrite <- app_assoc. reflexivity.
  Qed.

  Lemma loop_value e : forall key cur un r s, key <> [] -> Forall quiet e ->
    args_loop h key cur un (e ++ r) s = args_loop h key (cur ++ e) (un || existsb (Z.eqb 37) e) r s.
  Proof.
    induction e as [|c e IH]; intros key cur un r s K H; [cbn [app existsb]; rewrite app_nil_r, orb_false_r; reflexivity|]. inversion H as [|? ? [A [B C]] H']; subst.
    cbn [app args_loop existsb].
    destruct (c =? 0) eqn:E0; [lia|]. destruct (c =? 38) eqn:E2; [lia|]. destruct (c =? 43) eqn:E3; [lia|].
    destruct (c =? 61) eqn:E1.
    - destruct key as [|k0 k]; [congruence|]. rewrite IH by assumption. rewrite <- app_assoc. assert (37 =? c = false) as -> by lia. reflexivity.
    - destruct (c =? 37) eqn:E4; rewrite IH by assumption; rewrite <- app_assoc.
      + assert (37 =? c = true) as -> by lia. rewrite orb_true_l, orb_true_r. reflexivity.
      + assert (37 =? c = false) as -> by lia. reflexivity.
  Qed.

  Definition arg (kv : list Z * list Z) : list Z := fst kv ++ [61] ++ escape_args (snd kv).

  Lemma loop_arg k v r s : plain_key k -> Forall is_byte v ->
    args_loop h [] [] false (arg (k, v) ++ 38 :: r) s =
    match h k v s with Some s' => args_loop h [] [] false r s' | None => None end.
  Proof.
    intros [NK PK] V. unfold arg. cbn [fst snd]. rewrite <- !app_assoc. rewrite loop_key by exact PK. cbn [app].
    cbn [args_loop]. change (61 =? 0) with false. change (61 =? 61) with true. cbn iota.
    rewrite loop_value by (exact NK || apply escape_quiet; exact V). cbn [app orb].
    cbn [args_loop]. change (38 =? 0) with false. change (38 =? 61) with false. change (38 =? 38) with true. cbn iota.
    destruct k as [|k0 k]; [congruence|].
    assert ((if existsb (Z.eqb 37) (escape_args v) then unescape (escape_args v) else escape_args v) = v) as ->; [|reflexivity].
    destruct (existsb (Z.eqb 37) (escape_args v)) eqn:E; [apply unescape_all; exact V | apply escape_same; assumption].
  Qed.

  Fixpoint fold_args (kvs : list (list Z * list Z)) (s : S) : option S :=
    match kvs with
    | [] => Some s
    | (k, v) :: r => match h k v s with Some s' => fold_args r s' | None => None end
    end.

  Lemma loop_args kvs : forall r s, Forall (fun kv => plain_key (fst kv) /\ Forall is_byte (snd kv)) kvs ->
    args_loop h [] [] false (flat_map (fun kv => arg kv ++ [38]) kvs ++ r) s =
    match fold_args kvs s with Some s' => args_loop h [] [] false r s' | None => None end.
  Proof.
    induction kvs as [|[k v] kvs IH]; intros r s H; [reflexivity|]. inversion H as [|? ? [A B] H']; subst. cbn [fst snd] in A, B.
    cbn [flat_map fold_args]. rewrite <- !app_assoc. cbn [app]. rewrite loop_arg by assumption.
    destruct (h k v s) as [s'|]; [apply IH; exact H' | reflexivity].
  Qed.

  Lemma amp_shift kvs : flat_map (fun kv => 38 :: arg kv) kvs ++ [38] = 38 :: flat_map (fun kv => arg kv ++ [38]) kvs.
  Proof.
    induction kvs as [|a l IH]; [reflexivity|]. cbn [flat_map]. rewrite <- app_assoc, IH. cbn [app]. f_equal. rewrite <- app_assoc. reflexivity.
  Qed.

  (* a query string of key=value items *)
  Lemma parse_args_fold kv kvs s : Forall (fun kv => plain_key (fst kv) /\ Forall is_byte (snd kv)) (kv :: kvs) ->
    parse_args h (arg kv ++ flat_map (fun x => 38 :: arg x) kvs) s = fold_args (kv :: kvs) s.
  Proof.
    intros H. unfold parse_args.
    assert (forall A (x y : A) (t : list Z), t <> [] -> match t with [] => x | _ => y end = y) as M by (intros A x y [|? ?] Ht; congruence).
    rewrite M.
    2:{ inversion H as [|? ? [[NK _] _] _]; subst. destruct kv as [k v]. cbn [fst] in NK. unfold arg. cbn [fst snd]. destruct k; [congruence | discriminate]. }
    replace ((arg kv ++ flat_map (fun x => 38 :: arg x) kvs) ++ [38; 0]) with (flat_map (fun x => arg x ++ [38]) (kv :: kvs) ++ [0]).
    - rewrite loop_args by exact H. destruct (fold_args (kv :: kvs) s) as [s'|]; reflexivity.
    - change [38; 0] with ([38] ++ [0]). rewrite (app_assoc _ [38] [0]). f_equal. rewrite <- app_assoc, amp_shift. cbn [flat_map]. rewrite <- app_assoc. reflexivity.
  Qed.
End Loop.

(* ----- numbers *)
Lemma atoi_loop_ok ds : forall v, Forall (fun c => digit c = true) ds -> 0 <= v -> val v ds <= MAX_INT ->
  atoi_loop v ds = Some (val v ds).
Proof.
  induction ds as [|c ds IH]; intros v D V M; [reflexivity|]. inversion D as [|? ? A D']; subst. cbn [atoi_loop val fold_left] in *. unfold digit in A.
  assert ((c <? 48) || (c >? 57) = false) as -> by lia.
  assert (forall ds v, Forall (fun c => digit c = true) ds -> 0 <= v -> v <= val v ds) as G.
  { clear. induction ds as [|c ds IH]; intros v D V; [cbn; lia|]. inversion D as [|? ? A D']; subst. unfold digit in A. cbn [val fold_left].
    specialize (IH (10 * v + (c - 48)) D' ltac:(lia)). unfold val in IH. lia. }
  fold (val (10 * v + (c - 48)) ds) in *. pose proof (G ds (10 * v + (c - 48)) D' ltac:(lia)) as G1.
  assert ((v >=? MAX_INT / 10) && ((v >? MAX_INT / 10) || (c - 48 >? MAX_INT mod 10)) = false) as ->.
  { change (MAX_INT / 10) with 922337203685477580. change (MAX_INT mod 10) with 7. unfold MAX_INT in M. lia. }
  replace (v * 10 + (c - 48)) with (10 * v + (c - 48)) by ring. apply IH; [exact D' | lia | exact M].
Qed.
Lemma dec_f_20 n : 0 <= n < 2 ^ 64 -> Forall (fun c => digit c = true) (dec_f 20 n) /\ val 0 (dec_f 20 n) = n /\ dec_f 20 n <> [].
Proof.
  intros H. split; [apply dec_f_digits; lia|]. split; [|apply dec_f_ne].
  assert (0 <= n < 10 ^ Z.of_nat 20) as H' by (change (10 ^ Z.of_nat 20) with 100000000000000000000; lia). exact (dec_f_value 20 n H').
Qed.
Lemma atoi_dec_f n : 0 <= n <= MAX_INT -> atoi (dec_f 20 n) = Some n.
Proof.
  intros H. destruct (dec_f_20 n) as (A & B & C); [unfold MAX_INT in H; lia|]. unfold atoi. destruct (dec_f 20 n) as [|c r] eqn:E; [congruence|].
  rewrite atoi_loop_ok; [f_equal; exact B | exact A | lia | rewrite B; lia].
Qed.
Lemma atoi_dec n : 0 <= n < 2 ^ 32 -> atoi (dec n) = Some n.
Proof. intros H. unfold dec, u32. rewrite Z.mod_small by exact H. apply atoi_dec_f. unfold MAX_INT. lia. Qed.

Lemma hextoi_app l : forall v d w, hextoi_loop v l = Some w -> 0 <= d < 16 -> w <= MAX_INT / 16 -> hextoi_loop v (l ++ [lower_hex d]) = Some (w * 16 + d).
Proof.
  induction l as [|c l IH]; intros v d w H D M.
  - injection H as <-. cbn [app hextoi_loop]. destruct (v >? MAX_INT / 16) eqn:E; [lia|]. rewrite hex_value_lower by exact D. reflexivity.
  - cbn [app hextoi_loop] in *. destruct (v >? MAX_INT / 16); [discriminate|]. destruct (hex_value c); [|discriminate]. apply IH; assumption.
Qed.
Lemma hextoi_hex_f fuel : forall n, 0 <= n < 16 ^ Z.of_nat fuel -> n < 2 ^ 32 -> hextoi_loop 0 (hex_f fuel n) = Some n.
Proof.
  induction fuel as [|f IH]; intros n H L; [cbn [hex_f hextoi_loop]; f_equal; cbn in H; lia|].
  cbn [hex_f]. destruct (n <? 16) eqn:E.
  - cbn [hextoi_loop]. change (0 >? MAX_INT / 16) with false. cbn iota. rewrite hex_value_lower by lia. reflexivity.
  - replace (Some n) with (Some (n / 16 * 16 + n mod 16)) by (f_equal; lia). apply hextoi_app.
    + apply IH; [|lia]. rewrite Nat2Z.inj_succ, Z.pow_succ_r in H by lia. lia.
    + lia.
    + change (MAX_INT / 16) with 576460752303423487. lia.
Qed.
Lemma hex_f_ne fuel n : hex_f (S fuel) n <> [].
Proof. cbn [hex_f]. destruct (n <? 16); [discriminate|]. intros H. apply app_eq_nil in H. destruct H; discriminate. Qed.
Lemma hextoi_hex32 n : 0 <= n < 2 ^ 32 -> hextoi (hex32 n) = Some n.
Proof.
  intros H. unfold hex32, u32. rewrite Z.mod_small by exact H. unfold hextoi. pose proof (hex_f_ne 19 n). destruct (hex_f 20 n) as [|c r] eqn:E; [congruence|].
  rewrite <- E. apply hextoi_hex_f; [|lia]. change (16 ^ Z.of_nat 20) with 1208925819614629174706176. lia.
Qed.

Lemma digits_plain l : Forall (fun c => digit c = true) l -> Forall (fun c => args_plain c = true) l /\ Forall is_byte l.
Proof. intros H. split; (eapply Forall_impl; [|exact H]); intros c D; cbv beta in D; unfold digit in D; [unfold args_plain; lia | unfold is_byte; lia]. Qed.
Lemma hex_f_plain fuel : forall n, 0 <= n -> Forall (fun c => args_plain c = true) (hex_f fuel n) /\ Forall is_byte (hex_f fuel n).
Proof.
  assert (forall d, 0 <= d < 16 -> args_plain (lower_hex d) = true /\ is_byte (lower_hex d)) as G.
  { intros d H. unfold args_plain, is_byte, lower_hex. destruct (d <? 10) eqn:E; lia. }
  induction fuel as [|f IH]; intros n H; [split; apply Forall_nil|]. cbn [hex_f]. destruct (n <? 16) eqn:E.
  - destruct (G n ltac:(lia)). split; (apply Forall_cons; [assumption | apply Forall_nil]).
  - destruct (IH (n / 16) ltac:(lia)) as [A B]. destruct (G (n mod 16) ltac:(lia)).
    split; apply Forall_app; (split; [assumption | apply Forall_cons; [assumption | apply Forall_nil]]).
Qed.
Lemma hex_f_len fuel : forall n k, 0 <= n < 16 ^ k -> 1 <= k -> zlen (hex_f fuel n) <= k.
Proof.
  induction fuel as [|f IH]; intros n k H K; [cbn; lia|]. cbn [hex_f]. destruct (n <? 16) eqn:E; [cbn; lia|].
  rewrite zlen_app. assert (1 < k). { destruct (Z.eq_dec k 1) as [->|]; [change (16 ^ 1) with 16 in H; lia | lia]. }
  assert (zlen (hex_f f (n / 16)) <= k - 1). { apply IH; [|lia]. replace k with (Z.succ (k - 1)) in H by lia. rewrite Z.pow_succ_r in H by lia. lia. }
  change (zlen [lower_hex (n mod 16)]) with 1. lia.
Qed.
