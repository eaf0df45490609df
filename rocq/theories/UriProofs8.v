(* Range requests; the names of files. *)
From Coq Require Import String Ascii ZArith List Bool Lia ZifyBool.
From Verif Require Import Bytes M3u8Model M3u8Spec M3u8Proofs M3u8Proofs7 M3u8Proofs9 UriModel UriSpec UriProofs UriProofs2 UriProofs3 UriProofs4 UriProofs5.
Import ListNotations.
Open Scope Z_scope.

Definition acc (l : list Z) (v : Z) : Z := fold_left (fun a c => 10 * a + (c - 48)) l v.
Lemma acc_grows l : forall v, forallb digit l = true -> 0 <= v -> v <= acc l v.
Proof.
  induction l as [|c l IH]; intros v D V; [cbn; lia|]. cbn [forallb] in D. apply andb_true_iff in D. destruct D as [D1 D2]. unfold digit in D1.
  unfold acc. cbn [fold_left]. fold (acc l (10 * v + (c - 48))). specialize (IH (10 * v + (c - 48)) D2). lia.
Qed.
Lemma off_ok l : forall v rest, forallb digit l = true -> 0 <= v -> acc l v < 2 ^ 63 -> digit_first rest = false -> off_loop v (l ++ rest) = Some (acc l v, rest).
Proof.
  induction l as [|c l IH]; intros v rest D V A F.
  - cbn [app acc fold_left]. unfold acc. cbn [fold_left]. destruct rest as [|c r]; [reflexivity|]. cbn [off_loop]. unfold digit_first in F. rewrite F. reflexivity.
  - cbn [forallb] in D. apply andb_true_iff in D. destruct D as [D1 D2]. unfold digit in D1. unfold acc in A. cbn [fold_left] in A. fold (acc l (10 * v + (c - 48))) in A.
    pose proof (acc_grows l (10 * v + (c - 48)) D2 ltac:(lia)) as G. cbn [app off_loop]. rewrite D1.
    assert ((v >=? MAX_OFF / 10) && ((v >? MAX_OFF / 10) || (c - 48 >? MAX_OFF mod 10)) = false) as ->.
    { change (MAX_OFF / 10) with 922337203685477580. change (MAX_OFF mod 10) with 7. change (2 ^ 63) with 9223372036854775808 in A. lia. }
    replace (v * 10 + c - 48) with (10 * v + (c - 48)) by lia. rewrite IH by (assumption || lia). reflexivity.
Qed.
Lemma off_inv l : forall v w r, 0 <= v < 2 ^ 63 -> off_loop v l = Some (w, r) ->
  exists d, l = d ++ r /\ forallb digit d = true /\ w = acc d v /\ digit_first r = false /\ w < 2 ^ 63.
Proof.
  induction l as [|c l IH]; intros v w r V H.
  - injection H as <- <-. exists []. split; [reflexivity|]. split; [reflexivity|]. split; [reflexivity|]. split; [reflexivity | lia].
  - cbn [off_loop] in H. destruct ((48 <=? c) && (c <=? 57)) eqn:E.
    + destruct ((v >=? MAX_OFF / 10) && ((v >? MAX_OFF / 10) || (c - 48 >? MAX_OFF mod 10))) eqn:O; [discriminate|].
      change (MAX_OFF / 10) with 922337203685477580 in O. change (MAX_OFF mod 10) with 7 in O.
      apply IH in H; [|change (2 ^ 63) with 9223372036854775808 in *; lia]. destruct H as (d & -> & D & -> & F & B).
      exists (c :: d). split; [reflexivity|]. split; [cbn [forallb]; unfold digit at 1; rewrite E; exact D|].
      assert (acc (c :: d) v = acc d (v * 10 + c - 48)) as -> by (unfold acc; cbn [fold_left]; f_equal; lia). split; [reflexivity|]. split; assumption.
    + injection H as <- <-. exists []. split; [reflexivity|]. split; [reflexivity|]. split; [reflexivity|]. split; [exact E | lia].
Qed.
Lemma spaces_skip s : forall r, spaces s -> match r with 32 :: _ => False | _ => True end -> skip_spaces (s ++ r) = r.
Proof.
  induction s as [|c s IH]; intros r H R.
  - cbn [app]. destruct r as [|c r]; [reflexivity|]. cbn [skip_spaces]. destruct (c =? 32) eqn:E; [assert (c = 32) by lia; subst; destruct R | reflexivity].
  - inversion H as [|? ? -> H']; subst. cbn [app skip_spaces]. rewrite Z.eqb_refl. apply IH; assumption.
Qed.
Lemma skip_inv l : exists s, spaces s /\ l = s ++ skip_spaces l /\ match skip_spaces l with 32 :: _ => False | _ => True end.
Proof.
  induction l as [|c l (s & S & E & N)]; [exists []; repeat split; constructor|]. cbn [skip_spaces]. destruct (c =? 32) eqn:C.
  - exists (32 :: s). split; [apply Forall_cons; [reflexivity | exact S]|]. split; [cbn [app]; rewrite <- E; f_equal; lia | exact N].
  - exists []. split; [constructor|]. split; [reflexivity|]. destruct c as [|p|p]; [exact I | | exact I].
    destruct (Z.eq_dec (Z.pos p) 32) as [H|H]; [lia|]. destruct p as [p|p|]; try exact I. destruct p as [p|p|]; try exact I. destruct p as [p|p|]; try exact I.
    destruct p as [p|p|]; try exact I. destruct p as [p|p|]; try exact I. destruct p; try exact I. lia.
Qed.

Lemma number_digits d v : number d v -> exists c r, d = c :: r /\ forallb digit d = true /\ acc d 0 = v /\ 0 <= v < 2 ^ 63.
Proof.
  intros [N B]. unfold num in N. destruct d as [|c r]; [discriminate|]. destruct (forallb digit (c :: r)) eqn:D; [|discriminate]. injection N as N. change (acc (c :: r) 0 = v) in N.
  exists c, r. split; [reflexivity|]. split; [reflexivity|]. split; [exact N|]. pose proof (acc_grows (c :: r) 0 D ltac:(lia)) as G. lia.
Qed.
Lemma digits_number c r : forallb digit (c :: r) = true -> acc (c :: r) 0 < 2 ^ 63 -> number (c :: r) (acc (c :: r) 0).
Proof. intros D B. split; [|exact B]. unfold num. rewrite D. reflexivity. Qed.
Lemma digit_first_ok c r x : forallb digit (c :: r) = true -> digit_first ((c :: r) ++ x) = true.
Proof. cbn [forallb app digit_first]. unfold digit. intros H. apply andb_true_iff in H. apply H. Qed.
Lemma space_first s : forall r, spaces s -> digit_first r = false -> digit_first (s ++ r) = false.
Proof. intros r S R. destruct s as [|c s]; [exact R|]. inversion S; subst. reflexivity. Qed.

Lemma bytes_word w x : map lower w = str "bytes=" -> x <> [] ->
  zlen (w ++ x) <? 7 = false /\ after (str "bytes=") (map lower (firstn 6 (w ++ x))) = Some [] /\ skipn 6 (w ++ x) = x.
Proof.
  intros W X. assert (length w = 6)%nat as L by (rewrite <- (map_length lower w), W; reflexivity).
  split; [unfold zlen; rewrite app_length, L; destruct x; [congruence | cbn [length]; lia]|].
  rewrite <- L. rewrite firstn_app, firstn_all, Nat.sub_diag. cbn [firstn]. rewrite app_nil_r, W. split; [reflexivity|].
  rewrite skipn_app, skipn_all, Nat.sub_diag. reflexivity.
Qed.

Lemma last_ok sfx start len d v s : spaces s -> number d v ->
  range_last sfx start len (d ++ s) = range_found (if sfx then len - v else start) (if (if sfx then len - 1 else v) >=? len then len else (if sfx then len - 1 else v) + 1).
Proof.
  intros S N. destruct (number_digits d v N) as (c & r & -> & D & A & B). unfold range_last. rewrite digit_first_ok by exact D. cbn [negb].
  rewrite off_ok; [| exact D | lia | rewrite A; lia |].
  - rewrite A. pose proof (spaces_skip s [] S I) as K. rewrite app_nil_r in K. rewrite K. reflexivity.
  - rewrite <- (app_nil_r s). apply space_first; [exact S | reflexivity].
Qed.

Lemma not_dash_match {A} (x y : A) l (g : list Z -> A) : match l with 45 :: _ => False | _ => True end ->
  match l with 45 :: r => g r | _ => y end = y.
Proof.
  destruct l as [|c l]; [reflexivity|]. destruct c as [|p|p]; try reflexivity.
  destruct p as [p|p|]; try reflexivity; destruct p as [p|p|]; try reflexivity; destruct p as [p|p|]; try reflexivity;
  destruct p as [p|p|]; try reflexivity; destruct p as [p|p|]; try reflexivity; destruct p as [p|p|]; try reflexivity. intros [].
Qed.
Lemma first_not c r x : forallb digit (c :: r) = true -> match (c :: r) ++ x with 45 :: _ => False | _ => True end /\ match (c :: r) ++ x with 32 :: _ => False | _ => True end.
Proof.
  cbn [forallb app]. unfold digit. intros H. apply andb_true_iff in H. destruct H as [H _]. 
  assert (c = 48 \/ c = 49 \/ c = 50 \/ c = 51 \/ c = 52 \/ c = 53 \/ c = 54 \/ c = 55 \/ c = 56 \/ c = 57) as E by lia.
  repeat (destruct E as [ -> | E]; [split; exact I|]). subst. split; exact I.
Qed.

Lemma range_is_read r text len : range_text r text -> 0 <= len -> (forall n, r = Suffix n -> n <= len) -> range_parse text len = bytes_of r len.
Proof.
  intros (w & s1 & W & S1 & H) L NS. destruct r as [a b|a|n].
  - destruct H as (d1 & s2 & s3 & d2 & s4 & S2 & S3 & S4 & N1 & N2 & ->). destruct (number_digits d1 a N1) as (c & r & -> & D & A & B).
    unfold range_parse. destruct (bytes_word w (s1 ++ (c :: r) ++ s2 ++ [45] ++ s3 ++ d2 ++ s4) W ltac:(destruct s1; discriminate)) as (-> & -> & ->).
    destruct (first_not c r (s2 ++ [45] ++ s3 ++ d2 ++ s4) D) as [F1 F2].
    rewrite (spaces_skip s1 ((c :: r) ++ s2 ++ [45] ++ s3 ++ d2 ++ s4) S1 F2). cbv zeta. rewrite (not_dash_match None) by exact F1.
    rewrite digit_first_ok by exact D. cbn [negb]. rewrite off_ok; [| exact D | lia | rewrite A; lia | apply space_first; [exact S2 | reflexivity]].
    rewrite (spaces_skip s2) by (exact S2 || exact I). cbn [app].
    destruct (number_digits d2 b N2) as (c2 & r2 & E2 & D2 & A2 & B2). subst d2. destruct (first_not c2 r2 s4 D2) as [_ F4].
    rewrite (spaces_skip s3 ((c2 :: r2) ++ s4) S3 F4). cbn [app]. change (c2 :: r2 ++ s4) with ((c2 :: r2) ++ s4). rewrite (last_ok false _ _ _ _ _ S4 N2). rewrite A. unfold range_found, bytes_of.
    destruct (b >=? len) eqn:E1; destruct ((a <? len) && (a <=? b)) eqn:E3; destruct (a >=? _) eqn:E4; try lia; try reflexivity; f_equal; f_equal; lia.
  - destruct H as (d1 & s2 & s3 & S2 & S3 & N1 & ->). destruct (number_digits d1 a N1) as (c & r & -> & D & A & B).
    unfold range_parse. destruct (bytes_word w (s1 ++ (c :: r) ++ s2 ++ [45] ++ s3) W ltac:(destruct s1; discriminate)) as (-> & -> & ->).
    destruct (first_not c r (s2 ++ [45] ++ s3) D) as [F1 F2].
    rewrite (spaces_skip s1 ((c :: r) ++ s2 ++ [45] ++ s3) S1 F2). cbv zeta. rewrite (not_dash_match None) by exact F1.
    rewrite digit_first_ok by exact D. cbn [negb]. rewrite off_ok; [| exact D | lia | rewrite A; lia | apply space_first; [exact S2 | reflexivity]].
    rewrite (spaces_skip s2) by (exact S2 || exact I). cbn [app].
    pose proof (spaces_skip s3 [] S3 I) as K. rewrite app_nil_r in K. rewrite K, A. unfold range_found, bytes_of. destruct (a >=? len) eqn:E1, (a <? len) eqn:E2; try lia; reflexivity.
  - destruct H as (d & s2 & S2 & N & ->). specialize (NS n eq_refl).
    unfold range_parse. destruct (bytes_word w (s1 ++ [45] ++ d ++ s2) W ltac:(destruct s1; discriminate)) as (-> & -> & ->).
    rewrite (spaces_skip s1) by (exact S1 || exact I). cbv zeta. cbn [app]. rewrite (last_ok true _ _ _ _ _ S2 N).
    destruct (number_digits d n N) as (c & r & -> & D & A & B). unfold range_found, bytes_of. assert (len - 1 >=? len = false) as -> by lia.
    destruct (len - n >=? len - 1 + 1) eqn:E1; destruct ((0 <? n) && (0 <? len)) eqn:E2; try lia; try reflexivity. f_equal; f_equal; lia.
Qed.

Lemma last_inv sfx start len l x : range_last sfx start len l = Some x -> exists d v s, l = d ++ s /\ number d v /\ spaces s.
Proof.
  unfold range_last. destruct (digit_first l) eqn:F; [|discriminate]. cbn [negb]. destruct (off_loop 0 l) as [[e r]|] eqn:O; [|discriminate].
  apply off_inv in O; [|lia]. destruct O as (d & -> & D & -> & F2 & B). destruct (skip_inv r) as (s & S & E & _). destruct (skip_spaces r); [|discriminate].
  intros _. rewrite app_nil_r in E. subst r. destruct d as [|c d]; [cbn [app] in F; congruence|]. exists (c :: d), (acc (c :: d) 0), s. split; [reflexivity|]. split; [apply digits_number; assumption | exact S].
Qed.
Lemma range_accepted text len x : range_parse text len = Some x -> exists r, range_text r text.
Proof.
  unfold range_parse. destruct (zlen text <? 7); [discriminate|]. destruct (after _ _) as [z|] eqn:W; [|discriminate].
  assert (map lower (firstn 6 text) = str "bytes=") as W1.
  { pose proof (after_app _ _ _ W) as E. assert (length (map lower (firstn 6 text)) <= 6)%nat as L by (rewrite map_length, firstn_length; lia).
    rewrite E in L. rewrite app_length in L. destruct z; [rewrite app_nil_r in E; exact E | cbn in L; lia]. }
  pose proof (eq_sym (firstn_skipn 6 text)) as T. clear W. set (w := firstn 6 text) in *. set (t := skipn 6 text) in *. clearbody w t. subst text. cbv zeta.
  destruct (skip_inv t) as (s1 & S1 & E1 & _). set (p := skip_spaces t) in *. clearbody p. subst t.
  assert ((exists q, p = 45 :: q) \/ match p with 45 :: _ => False | _ => True end) as [[q ->]|ND].
  { destruct p as [|c q]; [right; exact I|]. destruct (Z.eq_dec c 45) as [->|NE]; [left; exists q; reflexivity | right].
    destruct c as [|pp|pp]; try exact I. do 6 (destruct pp as [pp|pp|]; try exact I). apply NE. reflexivity. }
  - intros H. apply last_inv in H. destruct H as (d & v & s & -> & N & S). exists (Suffix v). exists w, s1. split; [exact W1|]. split; [exact S1|]. exists d, s. split; [exact S|]. split; [exact N|]. reflexivity.
  - rewrite (not_dash_match None) by (exact ND). destruct (digit_first p) eqn:F; [|discriminate]. cbn [negb].
    destruct (off_loop 0 p) as [[start r]|] eqn:O; [|discriminate]. apply off_inv in O; [|lia]. destruct O as (d & -> & D & -> & F2 & B).
    destruct d as [|c d]; [cbn [app] in F; congruence|]. pose proof (digits_number c d D B) as N1.
    destruct (skip_inv r) as (s2 & S2 & E2 & _). set (p2 := skip_spaces r) in *. clearbody p2. subst r.
    assert ((exists q, p2 = 45 :: q) \/ match p2 with 45 :: _ => False | _ => True end) as [[q ->]|ND2].
    { destruct p2 as [|c2 q]; [right; exact I|]. destruct (Z.eq_dec c2 45) as [->|NE]; [left; exists q; reflexivity | right].
      destruct c2 as [|pp|pp]; try exact I. do 6 (destruct pp as [pp|pp|]; try exact I). apply NE. reflexivity. }
    2:{ rewrite (not_dash_match None) by (exact ND2). discriminate. }
    destruct (skip_inv q) as (s3 & S3 & E3 & _). set (p3 := skip_spaces q) in *. clearbody p3. subst q. destruct p3 as [|c3 p3].
    + intros _. exists (From (acc (c :: d) 0)). exists w, s1. split; [exact W1|]. split; [exact S1|]. exists (c :: d), s2, s3. split; [exact S2|]. split; [exact S3|]. split; [exact N1|].
      rewrite app_nil_r. reflexivity.
    + intros H. apply last_inv in H. destruct H as (d2 & v2 & s4 & E & N2 & S4). rewrite E.
      exists (Between (acc (c :: d) 0) v2). exists w, s1. split; [exact W1|]. split; [exact S1|]. exists (c :: d), s2, s3, d2, s4.
      split; [exact S2|]. split; [exact S3|]. split; [exact S4|]. split; [exact N1|]. split; [exact N2|]. reflexivity.
Qed.

(* ----- names *)
Lemma no_over_bind {A B} (o : out A) (g : A -> out B) : o <> Over -> (forall a, g a <> Over) -> bind o g <> Over.
Proof. intros H G. destruct o; cbn [bind]; [apply G | discriminate | congruence]. Qed.
Lemma core_over f base ext args : core_parse f base ext args <> Over.
Proof.
  assert (forall a, (if negb (n_part (a_name a) =? INVALID_INDEX) && negb (n_count (a_name a) =? 1) then Bad
    else Ok {| a_handler := a_handler a; a_name := a_name a; a_skip := a_skip a; a_flags := Z.lor (a_flags a) (l_base_flags f) |}) <> Over) as R
    by (intros a; destruct (_ && _); discriminate).
  unfold core_parse. apply no_over_bind; [|exact R]. clear R.
  destruct (eqs ext (str "m4s")).
  { unfold parse_m4s. destruct (seg_or_part base) as [[fl r]|]; [|discriminate]. apply no_over_bind; [apply file_name_over | intros; discriminate]. }
  destruct (eqs ext (str "mp4")).
  { unfold parse_mp4. destruct (after _ _); [|discriminate]. apply no_over_bind; [apply file_name_over | intros; discriminate]. }
  destruct (eqs ext (str "ts")).
  { unfold parse_ts. destruct (seg_or_part base) as [[fl r]|]; [|discriminate]. apply no_over_bind; [apply file_name_over | intros; discriminate]. }
  destruct (eqs ext (str "vtt")).
  { unfold parse_vtt. destruct (seg_or_part base) as [[fl r]|]; [|discriminate]. apply no_over_bind; [apply file_name_over | intros; discriminate]. }
  destruct (eqs ext (str "key")).
  { unfold parse_key. destruct (after _ _); [|discriminate]. destruct (l_serve_key f); [|discriminate]. apply no_over_bind; [apply file_name_over | intros; discriminate]. }
  destruct (eqs ext (str "m3u8")); [|discriminate].
  unfold parse_m3u8. destruct (after _ _).
  - destruct (parse_args _ _ _) as [[[n fl] sk]|]; [|discriminate]. destruct (_ && _); [discriminate|]. apply no_over_bind; [apply file_name_over|].
    intros n1. destruct (n_count n1 =? 1); [discriminate|]. destruct (has _ _); discriminate.
  - destruct (after _ _); [|discriminate]. apply no_over_bind; [apply file_name_over | intros; discriminate].
Qed.

Lemma single_count can cnt sfx t : (can = 3 /\ cnt = 2) \/ (can = 7 /\ cnt = 3) \/ (can = 4 /\ cnt = 1) -> says_types can sfx t ->
  forall n, n_count n = cnt -> (count_of n sfx = 1 <-> single t).
Proof.
  intros C [[-> ->]|(ls & -> & N & D & F & ->)] n Hn; unfold count_of.
  - rewrite Hn. unfold single. lia.
  - destruct ls as [|c1 ls]; [congruence|]. inversion F as [|? ? F1 F']; subst. destruct ls as [|c2 ls].
    + split; [intros _ | reflexivity]. destruct F1 as [[-> _]|[[-> _]|[-> _]]]; unfold single; vm_compute; auto.
    + inversion F' as [|? ? F2 F'']; subst. inversion D as [|? ? D1 D2]; subst. split; intros H; exfalso.
      * rewrite !M3u8Proofs9.zlen_cons in H. pose proof (zlen_nonneg ls). lia.
      * assert (c1 <> c2) as NE by (intros ->; apply D1; left; reflexivity). clear - F1 F2 NE H. unfold single, letters_mask in H. cbn [existsb] in H.
        destruct F1 as [[-> _]|[[-> _]|[-> _]]], F2 as [[-> _]|[[-> _]|[-> _]]]; try congruence; cbn [Z.eqb Pos.eqb orb] in H;
          repeat match type of H with context [existsb ?p ls] => destruct (existsb p ls) end; lia.
Qed.

Lemma drop_ok s l : drop_suffix s (l ++ s) = Some l.
Proof. unfold drop_suffix. rewrite rev_app_distr, after_ok, rev_involutive. reflexivity. Qed.
Lemma drop_none s l : drop_suffix s l = None <-> ~ ends s l.
Proof.
  split.
  - intros H (r & ->). rewrite drop_ok in H. discriminate.
  - intros H. destruct (drop_suffix s l) as [r|] eqn:E; [|reflexivity]. exfalso. apply H. exists r. apply drop_app. exact E.
Qed.
Lemma fmp4_stripped l r : fmp4_name l = r -> stripped (str "m4s") l r.
Proof.
  unfold stripped. destruct (list_eq_dec _ _ _); [|congruence]. unfold fmp4_name. destruct (drop_suffix (str "-wvtt") l) as [x|] eqn:E.
  - intros <-. left. apply drop_app. exact E.
  - destruct (drop_suffix (str "-stpp") l) as [x|] eqn:E2.
    + intros <-. right. left. apply drop_app. exact E2.
    + intros <-. right. right. split; [reflexivity|]. split; apply drop_none; assumption.
Qed.
Lemma stripped_fmp4 l r : stripped (str "m4s") l r -> fmp4_name l = r.
Proof.
  unfold stripped. destruct (list_eq_dec _ _ _); [|congruence]. unfold fmp4_name. intros [->|[->|(-> & A & B)]].
  - rewrite drop_ok. reflexivity.
  - assert (drop_suffix (str "-wvtt") (r ++ str "-stpp") = None) as ->; [|rewrite drop_ok; reflexivity].
    unfold drop_suffix. rewrite rev_app_distr. reflexivity.
  - apply drop_none in A, B. rewrite A, B. reflexivity.
Qed.
(* the suffix is not in the start of the name *)
Lemma fmp4_prefix p l : p = str "seg" \/ p = str "part" -> (forall r, stripped (str "m4s") (p ++ l) r <-> exists r', r = p ++ r' /\ stripped (str "m4s") l r').
Proof.
  intros P r. unfold stripped. destruct (list_eq_dec _ _ _); [|congruence].
  assert (forall s x, (p ++ l = x ++ 45 :: s) -> exists x', x = p ++ x' /\ l = x' ++ 45 :: s) as G.
  { intros s x H. assert (no 45 p) as N by (destruct P as [ -> | -> ]; vm_compute; intuition discriminate). clear P. revert x H. induction p as [|c p IH]; intros x H.
    - exists x. split; [reflexivity | exact H].
    - destruct x as [|d x]; [cbn [app] in H; injection H as H _; exfalso; apply N; left; exact H|]. cbn [app] in H. injection H as <- H.
      destruct (IH ltac:(intros Q; apply N; right; exact Q) x H) as (x' & -> & E). exists x'. split; [reflexivity | exact E]. }
  split.
  - intros [H|[H|(<- & A & B)]].
    + destruct (G _ _ H) as (x' & -> & E). exists x'. split; [reflexivity | left; exact E].
    + destruct (G _ _ H) as (x' & -> & E). exists x'. split; [reflexivity | right; left; exact E].
    + exists l. split; [reflexivity|]. right. right. split; [reflexivity|]. split; intros (q & Q); [apply A | apply B]; exists (p ++ q); rewrite Q, app_assoc; reflexivity.
  - intros (r' & -> & [->|[->|(-> & A & B)]]).
    + left. apply app_assoc.
    + right. left. apply app_assoc.
    + right. right. split; [reflexivity|]. split; intros (q & Q); destruct (G _ _ Q) as (x' & _ & E); [apply A | apply B]; exists x'; exact E.
Qed.

Lemma index_none ds i : says_index ds i -> i <> none.
Proof. intros (_ & V & _). pose proof (Z.mod_pos_bound (fold_left (fun a c => 10 * a + (c - 48)) ds 0) (2 ^ 32) ltac:(lia)) as B. unfold u32 in V. unfold none. lia. Qed.

Definition media_parse (strip : list Z -> list Z) (can cnt : Z) (h : handler) (g : name -> Z) (base : list Z) : out ask :=
  match seg_or_part base with
  | None => Bad
  | Some (fl, r) => bind (parse_file_name (fl + seg_flags) (name0 can cnt) (strip r)) (fun n => Ok {| a_handler := h; a_name := n; a_skip := 0; a_flags := g n |})
  end.

Lemma seg_or_part_inv base fl r : seg_or_part base = Some (fl, r) -> fl = 0 /\ base = str "seg" ++ r \/ fl = REQUIRE_PART_INDEX /\ base = str "part" ++ r.
Proof.
  unfold seg_or_part. destruct (after (str "seg") base) as [x|] eqn:E.
  - intros H. injection H as <- <-. left. split; [reflexivity | apply after_app; exact E].
  - destruct (after (str "part") base) as [x|] eqn:E2; [|discriminate]. intros H. injection H as <- <-. right. split; [reflexivity | apply after_app; exact E2].
Qed.

Lemma media_iff f ext strip can cnt h g base : (can = 3 /\ cnt = 2) \/ (can = 7 /\ cnt = 3) \/ (can = 4 /\ cnt = 1) -> seg_handler h ->
  (forall p r x, p = str "seg" \/ p = str "part" -> (stripped ext (p ++ r) x <-> x = p ++ strip r)) -> (forall x, stripped ext base x -> exists r, forall p, p = str "seg" \/ p = str "part" -> (exists q, x = p ++ q) -> base = p ++ r /\ x = p ++ strip r) ->
  (forall w id t, (exists a, core_rest f (media_parse strip can cnt h g base) = Ok a /\ asks a w id t) <-> exists l, stripped ext base l /\ says_file can l w id t)
  /\ (forall a, core_rest f (media_parse strip can cnt h g base) = Ok a -> exists w id t, asks a w id t).
Proof.
  intros C Hh HS HB.
  assert (forall w, handler_ok w h -> exists i, w = Segment i \/ exists k, w = Part i k) as HW.
  { intros w H. destruct w; cbn [handler_ok] in H; try (destruct Hh as [ -> | [ -> | -> ]]; discriminate H); [exists i; left; reflexivity | exists i; right; exists k; reflexivity]. }
  (* what is accepted *)
  assert (forall a, core_rest f (media_parse strip can cnt h g base) = Ok a -> exists w id t l, asks a w id t /\ stripped ext base l /\ says_file can l w id t) as FW.
  { intros a H. unfold media_parse in H. destruct (seg_or_part base) as [[fl r]|] eqn:E; [|discriminate]. apply seg_or_part_inv in E.
    destruct (parse_file_name (fl + seg_flags) (name0 can cnt) (strip r)) as [n| |] eqn:P; try discriminate. unfold core_rest in H. cbn [bind a_handler a_name a_skip a_flags] in H.
    destruct (negb (n_part n =? INVALID_INDEX) && negb (n_count n =? 1)) eqn:Q; [discriminate|]. injection H as <-.
    destruct E as [[-> ->]|[-> ->]].
    - change (0 + seg_flags) with seg_flags in P. apply seg_name_iff in P. destruct P as (ds & i & id & sfx & t & E & SI & N & ST & ->).
      exists (Segment i), id, t, (str "seg" ++ strip r). split; [|split].
      + split; [exact Hh|]. repeat split.
      + apply HS; [left; reflexivity | reflexivity].
      + exists sfx. split; [exact ST|]. split; [exact N|]. exists ds. split; [exact SI|]. rewrite E. rewrite <- ?app_assoc. reflexivity.
    - apply part_name_iff in P. destruct P as (ds & i & dk & k & id & sfx & t & E & SI & SK & N & ST & ->).
      exists (Part i k), id, t, (str "part" ++ strip r). split; [|split].
      + split; [exact Hh|]. cbn [a_name with_types set_ids set_part set_seg n_ids n_mask n_seg n_part]. repeat (split; [reflexivity|]). exact (index_none _ _ SK).
      + apply HS; [right; reflexivity | reflexivity].
      + exists sfx. split; [exact ST|]. split; [exact N|]. exists ds, dk. split; [exact SI|]. split; [exact SK|]. split.
        * apply (single_count can cnt sfx t C ST (set_ids id (set_part k (set_seg i (name0 can cnt)))) eq_refl). cbn [with_types n_part n_count set_ids set_part set_seg] in Q.
          pose proof (index_none _ _ SK) as NK. change INVALID_INDEX with none in Q. apply andb_false_iff in Q. destruct Q as [Q|Q]; [lia|]. apply negb_false_iff in Q. apply Z.eqb_eq in Q. exact Q.
        * rewrite E. rewrite <- ?app_assoc. reflexivity. }
  split.
  2:{ intros a H. destruct (FW a H) as (w & id & t & l & A & _). exists w, id, t. exact A. }
  intros w id t. split.
  - intros (a & H & A). destruct (FW a H) as (w' & id' & t' & l & A' & S & F). exists l. split; [exact S|].
    destruct A as (A1 & A2 & A3 & A4), A' as (B1 & B2 & B3 & B4). rewrite A2 in B2. injection B2 as <-. rewrite A3 in B3. subst t'.
    destruct w as [i|i k|i|s|i k s| |]; try (destruct A4; fail); destruct w' as [i'|i' k'|i'|s'|i' k' s'| |]; try (destruct B4; fail).
    + destruct A4 as [A4 _], B4 as [B4 _]. rewrite A4 in B4. subst i'. exact F.
    + destruct A4 as [_ A4], B4 as (_ & B4 & B5). congruence.
    + destruct A4 as (_ & A4 & A5), B4 as [_ B4]. congruence.
    + destruct A4 as (A4 & A5 & _), B4 as (B4 & B5 & _). rewrite A4 in B4. rewrite A5 in B5. subst i' k'. exact F.
  - intros (l & S & sfx & ST & N & F). destruct (HB l S) as (r & HR). destruct w as [i|i k|i|s|i k s| |]; try (destruct F; fail).
    + destruct F as (ds & SI & E). destruct (HR (str "seg") (or_introl eq_refl)) as [-> E2]; [exists (45 :: ds ++ str "-s" ++ id ++ sfx); exact E|].
      rewrite E in E2. change (str "seg-" ++ ds ++ str "-s" ++ id ++ sfx) with (str "seg" ++ 45 :: ds ++ 45 :: 115 :: id ++ sfx) in E2. apply app_inv_head in E2.
      unfold media_parse. rewrite seg_of_text. change (0 + seg_flags) with seg_flags.
      assert (parse_file_name seg_flags (name0 can cnt) (strip r) = Ok (with_types (set_ids id (set_seg i (name0 can cnt))) t sfx)) as ->.
      { apply seg_name_iff. exists ds, i, id, sfx, t. split; [symmetry; exact E2|]. repeat (split; [assumption|]). reflexivity. }
      cbn [bind]. rewrite core_rest_ok by (left; reflexivity). eexists. split; [reflexivity|]. split; [exact Hh|]. repeat split.
    + destruct F as (ds & dk & SI & SK & SG & E). destruct (HR (str "part") (or_intror eq_refl)) as [-> E2]; [exists (45 :: ds ++ str "-" ++ dk ++ str "-s" ++ id ++ sfx); exact E|].
      rewrite E in E2. change (str "part-" ++ ds ++ str "-" ++ dk ++ str "-s" ++ id ++ sfx) with (str "part" ++ 45 :: ds ++ 45 :: dk ++ 45 :: 115 :: id ++ sfx) in E2. apply app_inv_head in E2.
      unfold media_parse. rewrite part_of_text.
      assert (parse_file_name (REQUIRE_PART_INDEX + seg_flags) (name0 can cnt) (strip r) = Ok (with_types (set_ids id (set_part k (set_seg i (name0 can cnt)))) t sfx)) as ->.
      { apply part_name_iff. exists ds, i, dk, k, id, sfx, t. split; [symmetry; exact E2|]. repeat (split; [assumption|]). reflexivity. }
      cbn [bind]. rewrite core_rest_ok.
      * eexists. split; [reflexivity|]. split; [exact Hh|]. cbn [a_name with_types set_ids set_part set_seg n_ids n_mask n_seg n_part]. repeat (split; [reflexivity|]). exact (index_none _ _ SK).
      * right. cbn [a_name with_types n_count]. apply (single_count can cnt sfx t C ST); [reflexivity | exact SG].
Qed.

Lemma names_iff f base ext can args : extension ext can ->
  (forall w id t, (exists a, core_parse f base ext args = Ok a /\ asks a w id t) <-> exists l, stripped ext base l /\ says_file can l w id t)
  /\ (forall a, core_parse f base ext args = Ok a -> exists w id t, asks a w id t).
Proof.
  assert (forall e x y, e <> str "m4s" -> (stripped e x y <-> x = y)) as ST.
  { intros e x y N. unfold stripped. destruct (list_eq_dec _ _ _); [congruence | tauto]. }
  intros [[-> ->]|[[-> ->]|[-> ->]]].
  - rewrite core_ts. apply (media_iff f (str "ts") (fun x => x) 3 2 TsSegment (fun _ => F_MEDIA + F_MEDIA_INFO) base); [lia | left; reflexivity | |].
    + intros p r x _. rewrite ST by (vm_compute; discriminate). split; intros E; symmetry; exact E.
    + intros x S. apply ST in S; [|vm_compute; discriminate]. subst x. destruct (after (str "seg") base) as [r|] eqn:E.
      * exists r. apply after_app in E. subst base. intros p [ -> | -> ] (q & Q); [split; reflexivity | discriminate Q].
      * destruct (after (str "part") base) as [r|] eqn:E2.
        -- exists r. apply after_app in E2. subst base. intros p [ -> | -> ] (q & Q); [discriminate Q | split; reflexivity].
        -- exists []. intros p [ -> | -> ] (q & ->); rewrite after_ok in *; discriminate.
  - rewrite core_m4s. apply (media_iff f (str "m4s") fmp4_name 7 3 Mp4Segment (fun n => F_MEDIA + F_MEDIA_INFO + (if has (n_mask n) 4 then F_SEGMENT_TIME else 0)) base); [lia | right; left; reflexivity | |].
    + intros p r x P. rewrite (fmp4_prefix p r P). split.
      * intros (r' & -> & H). apply stripped_fmp4 in H. rewrite H. reflexivity.
      * intros ->. exists (fmp4_name r). split; [reflexivity | apply fmp4_stripped; reflexivity].
    + intros x S. destruct (after (str "seg") base) as [r|] eqn:E; [|destruct (after (str "part") base) as [r|] eqn:E2].
      * exists r. apply after_app in E. subst base. intros p P (q & Q). apply (fmp4_prefix (str "seg") r (or_introl eq_refl)) in S. destruct S as (r' & S1 & S2). apply stripped_fmp4 in S2.
        destruct P as [ -> | -> ]; [split; [reflexivity | rewrite S1, S2; reflexivity] | rewrite S1 in Q; discriminate Q].
      * exists r. apply after_app in E2. subst base. intros p P (q & Q). apply (fmp4_prefix (str "part") r (or_intror eq_refl)) in S. destruct S as (r' & S1 & S2). apply stripped_fmp4 in S2.
        destruct P as [ -> | -> ]; [rewrite S1 in Q; discriminate Q | split; [reflexivity | rewrite S1, S2; reflexivity]].
      * exists []. intros p P (q & ->). exfalso. unfold stripped in S. destruct (list_eq_dec _ _ _); [|congruence].
        assert (exists z, base = p ++ z) as (z & ->). { destruct S as [ -> | [ -> | (-> & _)]]; [eexists; rewrite <- app_assoc; reflexivity | eexists; rewrite <- app_assoc; reflexivity | exists q; reflexivity]. }
        destruct P as [ -> | -> ]; rewrite after_ok in *; discriminate.
  - rewrite core_vtt. apply (media_iff f (str "vtt") (fun x => x) 4 1 VttSegment (fun _ => F_MEDIA + F_MEDIA_INFO + F_SEGMENT_TIME) base); [lia | right; right; reflexivity | |].
    + intros p r x _. rewrite ST by (vm_compute; discriminate). split; intros E; symmetry; exact E.
    + intros x S. apply ST in S; [|vm_compute; discriminate]. subst x. destruct (after (str "seg") base) as [r|] eqn:E.
      * exists r. apply after_app in E. subst base. intros p [ -> | -> ] (q & Q); [split; reflexivity | discriminate Q].
      * destruct (after (str "part") base) as [r|] eqn:E2.
        -- exists r. apply after_app in E2. subst base. intros p [ -> | -> ] (q & Q); [discriminate Q | split; reflexivity].
        -- exists []. intros p [ -> | -> ] (q & ->); rewrite after_ok in *; discriminate.
Qed.
