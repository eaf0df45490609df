(* Reading what was written: numbers, lines and attribute lists. *)
From Coq Require Import String Ascii ZArith List Bool Lia ZifyBool.
From Verif Require Import Bytes M3u8Model M3u8Spec.
Import ListNotations.
Open Scope Z_scope.

Ltac liad := Z.div_mod_to_equations; lia.

(* ----- decimal numbers *)

Definition value (l : list Z) : Z := fold_left (fun a c => 10 * a + (c - 48)) l 0.

Lemma value_snoc l x : value (l ++ [x]) = 10 * value l + (x - 48).
Proof. unfold value. rewrite fold_left_app. reflexivity. Qed.

Lemma dec_f_digits fuel : forall n, 0 <= n -> Forall (fun c => digit c = true) (dec_f fuel n).
Proof.
  induction fuel as [|fuel IH]; intros n Hn; cbn [dec_f]; [constructor|].
  destruct (n <? 10) eqn:E.
  - constructor; [unfold digit; lia | constructor].
  - apply Forall_app. split; [apply IH; liad |].
    constructor; [unfold digit; liad | constructor].
Qed.

Lemma dec_f_value fuel : forall n, 0 <= n < 10 ^ Z.of_nat fuel -> value (dec_f fuel n) = n.
Proof.
  induction fuel as [|fuel IH]; intros n Hn.
  - change (10 ^ Z.of_nat 0) with 1 in Hn. change (value (dec_f 0 n)) with 0. lia.
  - cbn [dec_f]. destruct (n <? 10) eqn:E.
    + change (value [48 + n]) with (10 * 0 + (48 + n - 48)). lia.
    + rewrite value_snoc, IH; [liad|].
      rewrite Nat2Z.inj_succ, Z.pow_succ_r in Hn by lia. liad.
Qed.

Lemma dec_f_ne fuel n : dec_f (S fuel) n <> [].
Proof. cbn [dec_f]. destruct (n <? 10); [discriminate|]. intros H. apply app_eq_nil in H. destruct H; discriminate. Qed.

(* at most k digits below 10^k *)
Lemma dec_f_length fuel : forall n k, 0 <= n < 10 ^ k -> 1 <= k -> zlen (dec_f fuel n) <= k.
Proof.
  induction fuel as [|fuel IH]; intros n k Hn Hk; cbn [dec_f].
  - unfold zlen; cbn; lia.
  - destruct (n <? 10) eqn:E; [unfold zlen; cbn; lia|].
    unfold zlen. rewrite app_length. cbn [length].
    destruct (Z.eq_dec k 1) as [->|Hk1]; [change (10 ^ 1) with 10 in Hn; lia|].
    assert (zlen (dec_f fuel (n / 10)) <= k - 1) as H.
    { apply IH; [|lia]. replace k with (Z.succ (k - 1)) in Hn by lia.
      rewrite Z.pow_succ_r in Hn by lia. liad. }
    unfold zlen in H. lia.
Qed.

Lemma u32_small n : 0 <= n < 2 ^ 32 -> u32 n = n.
Proof. intros H. unfold u32. apply Z.mod_small; lia. Qed.

Lemma u32_range n : 0 <= u32 n < 2 ^ 32.
Proof. unfold u32. apply Z.mod_pos_bound; lia. Qed.

Definition all_digits (l : list Z) : Prop := Forall (fun c => digit c = true) l.

Lemma dec_digits n : all_digits (dec n).
Proof. apply dec_f_digits. apply u32_range. Qed.

Lemma num_dec n : 0 <= n < 2 ^ 32 -> num (dec n) = Some n.
Proof.
  intros H. unfold num, dec. rewrite u32_small by assumption.
  destruct (dec_f 20 n) eqn:E; [exfalso; revert E; apply dec_f_ne|].
  rewrite <- E.
  assert (forallb digit (dec_f 20 n) = true) as ->.
  { apply forallb_forall. intros x Hx. eapply Forall_forall in Hx; [|apply dec_f_digits; lia]. exact Hx. }
  f_equal. apply dec_f_value. change (10 ^ Z.of_nat 20) with (100000000000000000000). lia.
Qed.

Lemma dec_length n : 1 <= zlen (dec n) <= 10.
Proof.
  unfold dec. pose proof (u32_range n) as R. split.
  - destruct (dec_f 20 (u32 n)) eqn:E; [exfalso; revert E; apply dec_f_ne|]. unfold zlen. cbn [length]. lia.
  - apply dec_f_length; [|lia]. change (10 ^ 10) with 10000000000. lia.
Qed.

Lemma value_zeros k l : value (repeat 48 k ++ l) = value l.
Proof. induction k as [|k IH]; [reflexivity|]. cbn [repeat app]. unfold value in *. cbn [fold_left]. exact IH. Qed.

Lemma dec3_spec n : 0 <= n < 1000 -> all_digits (dec3 n) /\ length (dec3 n) = 3%nat /\ value (dec3 n) = n.
Proof.
  intros H. unfold dec3. cbv zeta.
  assert (length (dec n) <= 3)%nat as L.
  { assert (zlen (dec n) <= 3) as Q; [|unfold zlen in Q; lia].
    unfold dec. rewrite u32_small by lia. apply dec_f_length; [change (10 ^ 3) with 1000; lia | lia]. }
  repeat split.
  - apply Forall_app. split; [|apply dec_digits]. apply Forall_forall. intros x Hx.
    apply repeat_spec in Hx. subst. reflexivity.
  - rewrite app_length, repeat_length. lia.
  - rewrite value_zeros. unfold dec. rewrite u32_small by lia. apply dec_f_value.
    change (10 ^ Z.of_nat 20) with (100000000000000000000). lia.
Qed.

Lemma num_digits l : l <> [] -> all_digits l -> num l = Some (value l).
Proof.
  intros N H. unfold num. destruct l as [|a l]; [congruence|].
  assert (forallb digit (a :: l) = true) as ->; [|reflexivity].
  apply forallb_forall. intros x Hx. eapply Forall_forall in Hx; [|exact H]. exact Hx.
Qed.

Lemma num_dec3 n : 0 <= n < 1000 -> num (dec3 n) = Some n.
Proof.
  intros H. destruct (dec3_spec n H) as (A & L & V). rewrite num_digits; [congruence| |exact A].
  intros E. rewrite E in L. discriminate.
Qed.

(* ----- characters *)


Lemma no_app c a b : no c (a ++ b) <-> no c a /\ no c b.
Proof. unfold no. rewrite in_app_iff. tauto. Qed.

Lemma no_cons c x l : no c (x :: l) <-> x <> c /\ no c l.
Proof. unfold no. cbn. tauto. Qed.

Definition nob (c : Z) (l : list Z) : bool := forallb (fun x => negb (x =? c)) l.
Lemma nob_no c l : nob c l = true -> no c l.
Proof.
  unfold nob, no. intros H I. rewrite forallb_forall in H. specialize (H c I). lia.
Qed.

Lemma digits_no c l : all_digits l -> digit c = false -> no c l.
Proof. intros H D I. eapply Forall_forall in I; [|exact H]. cbn in I. congruence. Qed.

Lemma dec_no c n : digit c = false -> no c (dec n).
Proof. apply digits_no, dec_digits. Qed.

Lemma dec3_no c n : 0 <= n < 1000 -> digit c = false -> no c (dec3 n).
Proof. intros H. apply digits_no. apply dec3_spec. exact H. Qed.

Lemma secs_no c v : 0 <= v -> digit c = false -> c <> 46 -> no c (secs v).
Proof.
  intros H D P. unfold secs. rewrite !no_app. repeat split.
  - apply dec_no; exact D.
  - unfold no. cbn. intros [E|[]]. lia.
  - apply dec3_no; [liad | exact D].
Qed.

Lemma cut_at c a b : no c a -> cut c (a ++ c :: b) = Some (a, b).
Proof.
  induction a as [|x a IH]; intros N; cbn [app cut].
  - rewrite Z.eqb_refl. reflexivity.
  - apply no_cons in N. destruct (x =? c) eqn:E; [lia|]. rewrite IH by tauto. reflexivity.
Qed.

Lemma millis_secs v : 0 <= v < 2 ^ 32 -> millis (secs v) = Some v.
Proof.
  intros H. unfold millis, secs. change (str ".") with [46]. cbn [app].
  rewrite cut_at by (apply dec_no; reflexivity).
  rewrite num_dec by liad. rewrite num_dec3 by liad.
  destruct (dec3_spec (v mod 1000)) as (_ & L & _); [liad|].
  rewrite L. cbn [Nat.eqb]. f_equal. liad.
Qed.

(* ----- lines *)

Lemma lines_line a r : no 10 a -> lines (a ++ 10 :: r) = a :: lines r.
Proof.
  induction a as [|x a IH]; intros N; cbn [app lines].
  - reflexivity.
  - apply no_cons in N. destruct (x =? 10) eqn:E; [lia|]. rewrite IH by tauto. reflexivity.
Qed.

(* reading [text] turns the player [s] into [s'], whatever follows *)
Definition plays (s : player) (text : list Z) (s' : player) : Prop :=
  forall rest, read s (lines (text ++ rest)) = read s' (lines rest).

Lemma plays_nil s : plays s [] s.
Proof. intros r. reflexivity. Qed.

Lemma plays_app s a s1 b s2 : plays s a s1 -> plays s1 b s2 -> plays s (a ++ b) s2.
Proof. intros A B r. rewrite <- app_assoc, A, B. reflexivity. Qed.

Lemma plays_line s a s' : no 10 a -> on_line s a = Some s' -> plays s (a ++ [10]) s'.
Proof. intros N E r. rewrite <- app_assoc. cbn [app]. rewrite lines_line by exact N. cbn [read]. rewrite E. reflexivity. Qed.

Lemma plays_end s text s' : plays s text s' -> read s (lines text) = Some s'.
Proof. intros H. specialize (H []). rewrite app_nil_r in H. rewrite H. reflexivity. Qed.

(* ----- attribute lists *)

Definition item_ok (a : list Z) : Prop :=
  forall r, items false (a ++ r) = match items false r with x :: xs => (a ++ x) :: xs | [] => [a] end.

Lemma items_ne q l : items q l <> [].
Proof. destruct l as [|c r]; cbn [items]; [discriminate|]. destruct ((c =? 44) && negb q); [discriminate|].
  destruct (items _ r); discriminate. Qed.

Lemma item_nil : item_ok [].
Proof. intros r. cbn [app]. destruct (items false r) eqn:E; [exfalso; revert E; apply items_ne | reflexivity]. Qed.

Lemma item_app a b : item_ok a -> item_ok b -> item_ok (a ++ b).
Proof.
  intros A B r. rewrite <- app_assoc, A, B. destruct (items false r) eqn:E; [exfalso; revert E; apply items_ne|].
  rewrite <- app_assoc. reflexivity.
Qed.

Lemma item_plain a : no 44 a -> no 34 a -> item_ok a.
Proof.
  induction a as [|x a IH]; intros N1 N2; [apply item_nil|].
  apply no_cons in N1. apply no_cons in N2. intros r. cbn [app items].
  destruct (x =? 44) eqn:E; [lia|]. cbn [andb]. destruct (x =? 34) eqn:E2; [lia|].
  rewrite (IH ltac:(tauto) ltac:(tauto)). destruct (items false r) eqn:E3; [exfalso; revert E3; apply items_ne|]. reflexivity.
Qed.

Lemma items_quoted v r : no 34 v ->
  items true (v ++ 34 :: r) = match items false r with x :: xs => (v ++ 34 :: x) :: xs | [] => [v ++ [34]] end.
Proof.
  induction v as [|x v IH]; intros N; cbn [app items].
  - cbn [Z.eqb Pos.eqb andb negb]. destruct (items false r) eqn:E; [exfalso; revert E; apply items_ne|]. reflexivity.
  - apply no_cons in N. rewrite andb_false_r. destruct (x =? 34) eqn:E; [lia|].
    rewrite IH by tauto. destruct (items false r) eqn:E3; [exfalso; revert E3; apply items_ne|]. reflexivity.
Qed.

Lemma item_quoted v : no 34 v -> item_ok ([34] ++ v ++ [34]).
Proof.
  intros N r. cbn [app items]. cbn [Z.eqb Pos.eqb andb negb].
  rewrite <- app_assoc. cbn [app]. rewrite items_quoted by exact N.
  destruct (items false r) eqn:E; [exfalso; revert E; apply items_ne|].
  rewrite <- app_assoc. reflexivity.
Qed.

Lemma items_last a : item_ok a -> items false a = [a].
Proof. intros H. specialize (H []). rewrite app_nil_r in H. rewrite H. cbn [items]. rewrite app_nil_r. reflexivity. Qed.

Lemma items_comma a r : item_ok a -> items false (a ++ 44 :: r) = a :: items false r.
Proof. intros H. rewrite H. cbn [items Z.eqb Pos.eqb andb negb]. rewrite app_nil_r. reflexivity. Qed.

Lemma strip_app p l : strip p (p ++ l) = Some l.
Proof. induction p as [|a p IH]; [reflexivity|]. cbn [app strip]. rewrite Z.eqb_refl. exact IH. Qed.

Lemma unquote_quoted v : no 34 v -> unquote ([34] ++ v ++ [34]) = Some v.
Proof. intros N. cbn [app unquote]. cbn [Z.eqb Pos.eqb]. rewrite cut_at by exact N. reflexivity. Qed.

Lemma cut_app_no c a : no c a -> cut c a = None.
Proof.
  induction a as [|x a IH]; intros N; [reflexivity|]. apply no_cons in N. cbn [cut].
  destruct (x =? c) eqn:E; [lia|]. rewrite IH by tauto. reflexivity.
Qed.
