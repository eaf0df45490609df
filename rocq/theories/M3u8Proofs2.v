(* What each line that is written does to the player. *)
From Coq Require Import String Ascii ZArith List Bool Lia ZifyBool.
From Verif Require Import Bytes M3u8Model M3u8Spec M3u8Proofs.
Import ListNotations.
Open Scope Z_scope.

(* ----- the characters of uris *)


Lemma tame_app a b : tame a -> tame b -> tame (a ++ b).
Proof. unfold tame. rewrite !no_app. tauto. Qed.

Lemma tameb l : nob 10 l = true -> nob 34 l = true -> tame l.
Proof. intros A B. split; apply nob_no; assumption. Qed.

Lemma dec_tame n : tame (dec n).
Proof. split; apply dec_no; reflexivity. Qed.

Definition plain_char (c : Z) : Prop := c = 37 \/ (48 <= c <= 57) \/ (65 <= c <= 90) \/ (97 <= c <= 122)
  \/ c = 45 \/ c = 46 \/ c = 95 \/ c = 126.

Lemma plainb l : forallb (fun c => (c =? 45) || ((97 <=? c) && (c <=? 122))) l = true -> Forall plain_char l.
Proof. intros H. rewrite forallb_forall in H. apply Forall_forall. intros c I. specialize (H c I). unfold plain_char. lia. Qed.

Lemma hex_plain b : is_byte b -> Forall plain_char (hex_string [b]).
Proof.
  unfold is_byte. intros H. unfold hex_string. cbn [flat_map app].
  assert (forall n, 0 <= n < 16 -> plain_char (hex_char n)) as X.
  { intros n Hn. unfold hex_char, plain_char. destruct (n <? 10) eqn:E; lia. }
  constructor; [apply X; liad|]. constructor; [apply X; liad | constructor].
Qed.

Lemma escape_plain id : Forall is_byte id -> Forall plain_char (escape id).
Proof.
  induction id as [|c id IH]; intros H; [constructor|]. inversion H; subst.
  unfold escape. cbn [flat_map]. apply Forall_app. split; [|apply IH; assumption].
  destruct (unreserved c) eqn:E.
  - constructor; [|constructor]. unfold unreserved in E. unfold plain_char. lia.
  - constructor; [unfold plain_char; lia | apply hex_plain; assumption].
Qed.

Lemma plain_no c l : Forall plain_char l -> c = 10 \/ c = 34 \/ c = 44 -> no c l.
Proof. intros H D I. eapply Forall_forall in I; [|exact H]. cbn in I. unfold plain_char in I. lia. Qed.

Lemma mask_plain m : Forall plain_char (mask_text m).
Proof.
  unfold mask_text. destruct (m =? 7); [constructor|].
  destruct (Z.testbit m 0), (Z.testbit m 1), (Z.testbit m 2); apply plainb; reflexivity.
Qed.

Lemma sep_plain id m : Forall is_byte id -> Forall plain_char (sep_selector id m).
Proof.
  intros H. unfold sep_selector. change (str "-" ++ str "s" ++ escape id ++ mask_text m) with (45 :: 115 :: escape id ++ mask_text m).
  constructor; [unfold plain_char; lia|]. constructor; [unfold plain_char; lia|].
  apply Forall_app. split; [apply escape_plain; exact H | apply mask_plain].
Qed.

Lemma sep_tame id m : Forall is_byte id -> tame (sep_selector id m).
Proof. intros H. split; apply plain_no; auto using sep_plain. Qed.

(* ----- simple tags *)

Lemma nl_is : [nl] = [10].
Proof. reflexivity. Qed.

Lemma plays_tag s t x s' : no 10 t -> no 10 x -> on_line s (t ++ x) = Some s' -> plays s (t ++ x ++ [nl]) s'.
Proof. intros A B E. rewrite app_assoc. apply plays_line; [apply no_app; auto | exact E]. Qed.

Lemma plays_flag s t s' : nob 10 t = true -> on_line s t = Some s' -> plays s (t ++ [nl]) s'.
Proof. intros A E. apply plays_line; [apply nob_no; exact A | exact E]. Qed.

Definition with_ms (d : Z) (x : next) : next :=
  {| x_ms := Some d; x_discontinuity := x_discontinuity x; x_gap := x_gap x; x_date := x_date x; x_parts := x_parts x |}.

Lemma plays_extinf s d : 0 <= d < 2 ^ 32 -> plays s (extinf d) (set_next (with_ms d (y_next s)) s).
Proof.
  intros H. unfold extinf. rewrite (app_assoc (secs d)). apply plays_tag.
  - apply nob_no. reflexivity.
  - apply no_app. split; [apply secs_no; [lia | reflexivity | lia] | apply nob_no; reflexivity].
  - change (on_line s (str "#EXTINF:" ++ secs d ++ str ",")) with (on_extinf (secs d ++ [44]) s).
    unfold on_extinf. rewrite cut_at by (apply secs_no; [lia | reflexivity | lia]).
    rewrite millis_secs by exact H. reflexivity.
Qed.

Lemma plays_gap s : plays s (str "#EXT-X-GAP" ++ [nl]) (on_gap s).
Proof. apply plays_flag; reflexivity. Qed.

Lemma plays_disc s : plays s (str "#EXT-X-DISCONTINUITY" ++ [nl]) (on_discontinuity s).
Proof. apply plays_flag; reflexivity. Qed.

Lemma plays_endlist s : plays s (str "#EXT-X-ENDLIST" ++ [nl]) (on_end s).
Proof. apply plays_flag; reflexivity. Qed.

Lemma plays_rate s n : 0 <= n < 2 ^ 32 -> plays s (str "#EXT-X-BITRATE:" ++ dec n ++ [nl]) (set_rate n s).
Proof.
  intros H. apply plays_tag; [apply nob_no; reflexivity | apply dec_tame |].
  change (on_line s (str "#EXT-X-BITRATE:" ++ dec n)) with (on_rate (dec n) s).
  unfold on_rate. rewrite num_dec by exact H. reflexivity.
Qed.

Definition with_date (d : list Z) (n : Z) (x : next) : next :=
  {| x_ms := x_ms x; x_discontinuity := x_discontinuity x; x_gap := x_gap x; x_date := Some (d, n); x_parts := x_parts x |}.

Lemma firstn_exact {A} n (a b : list A) : length a = n -> firstn n (a ++ b) = a.
Proof. intros <-. rewrite firstn_app, Nat.sub_diag, firstn_all. cbn. apply app_nil_r. Qed.
Lemma skipn_exact {A} n (a b : list A) : length a = n -> skipn n (a ++ b) = b.
Proof. intros <-. rewrite skipn_app, Nat.sub_diag, skipn_all. reflexivity. Qed.

Lemma plays_date s d n : no 10 d -> no 46 d -> 0 <= n < 1000 ->
  plays s (str "#EXT-X-PROGRAM-DATE-TIME:" ++ d ++ str "." ++ dec3 n ++ str "+00:00" ++ [nl])
    (set_next (with_date d n (y_next s)) s).
Proof.
  intros N1 N2 H. destruct (dec3_spec n H) as (A & L & _).
  replace (d ++ str "." ++ dec3 n ++ str "+00:00" ++ [nl]) with ((d ++ 46 :: dec3 n ++ str "+00:00") ++ [nl])
    by (rewrite <- !app_assoc; cbn [app]; rewrite <- app_assoc; reflexivity).
  apply plays_tag.
  - apply nob_no; reflexivity.
  - rewrite no_app, no_cons, no_app. repeat split; [exact N1 | lia | apply digits_no; [exact A | reflexivity] | apply nob_no; reflexivity].
  - change (on_line s (str "#EXT-X-PROGRAM-DATE-TIME:" ++ d ++ 46 :: dec3 n ++ str "+00:00"))
      with (on_date (d ++ 46 :: dec3 n ++ str "+00:00") s).
    unfold on_date. rewrite cut_at by exact N2. rewrite firstn_exact, skipn_exact by exact L.
    rewrite num_dec3 by exact H. destruct (list_eq_dec Z.eq_dec (str "+00:00") (str "+00:00")); [reflexivity | congruence].
Qed.

Lemma item_clean c : nob 44 c = true -> nob 34 c = true -> item_ok c.
Proof. intros A B. apply item_plain; apply nob_no; assumption. Qed.

Lemma item_dec n : item_ok (dec n).
Proof. apply item_plain; apply dec_no; reflexivity. Qed.

Lemma item_secs v : 0 <= v -> item_ok (secs v).
Proof. intros H. apply item_plain; apply secs_no; first [exact H | reflexivity | lia]. Qed.

(* NAME="value" *)
Definition qattr (name : string) (v : list Z) : list Z := str name ++ [61] ++ [34] ++ v ++ [34].

Lemma item_qattr name v : nob 44 (str name) = true -> nob 34 (str name) = true -> no 34 v -> item_ok (qattr name v).
Proof.
  intros A B N. unfold qattr. apply item_app; [apply item_clean; assumption|].
  apply item_app; [apply item_clean; reflexivity | apply item_quoted; exact N].
Qed.

Lemma plays_map s u : tame u -> plays s (str "#EXT-X-MAP:URI=""" ++ u ++ [quote] ++ [nl]) (set_map u s).
Proof.
  intros [N1 N2]. rewrite (app_assoc u). apply plays_tag.
  - apply nob_no; reflexivity.
  - apply no_app. split; [exact N1 | apply nob_no; reflexivity].
  - change (on_line s (str "#EXT-X-MAP:URI=""" ++ u ++ [quote])) with (on_map (qattr "URI" u) s).
    unfold on_map, attr_text, attr. rewrite items_last by (apply item_qattr; [reflexivity | reflexivity | exact N2]).
    change (find_attr (str "URI" ++ [61]) [qattr "URI" u]) with (Some ([34] ++ u ++ [34])).
    cbv beta iota. rewrite unquote_quoted by exact N2. reflexivity.
Qed.

Lemma plays_uri s i u d : tame u -> x_ms (y_next s) = Some d ->
  plays s (str "seg" ++ str "-" ++ dec i ++ u ++ [nl])
    (add_seg {| s_uri := str "seg-" ++ dec i ++ u; s_ms := d; s_discontinuity := x_discontinuity (y_next s);
                s_gap := x_gap (y_next s); s_date := x_date (y_next s); s_map := y_map s;
                s_rate := y_rate s; s_parts := x_parts (y_next s) |} s).
Proof.
  intros [N1 N2] E. rewrite (app_assoc (dec i)), (app_assoc (str "-")).
  change (str "seg-" ++ dec i ++ u) with (str "seg" ++ str "-" ++ dec i ++ u).
  apply plays_tag.
  - apply nob_no; reflexivity.
  - rewrite !no_app. repeat split; [apply nob_no; reflexivity | apply dec_tame | exact N1].
  - change (on_line s (str "seg" ++ str "-" ++ dec i ++ u)) with (on_uri (str "seg" ++ str "-" ++ dec i ++ u) s).
    unfold on_uri. rewrite E. reflexivity.
Qed.

(* ----- parts *)

Definition with_part (p : part) (x : next) : next :=
  {| x_ms := x_ms x; x_discontinuity := x_discontinuity x; x_gap := x_gap x; x_date := x_date x;
     x_parts := x_parts x ++ [p] |}.

(* 0 no flag, 1 independent, 2 gap *)
Definition flag_text (k : Z) : list Z :=
  if k =? 1 then str ",INDEPENDENT=YES" else if k =? 2 then str ",GAP=YES" else [].

Lemma plays_part s d k u : 0 <= d < 2 ^ 32 -> tame u ->
  plays s (str "#EXT-X-PART:DURATION=" ++ secs d ++ flag_text k ++ str ",URI=""" ++ u ++ [quote] ++ [nl])
    (set_next (with_part {| pt_uri := u; pt_ms := d; pt_independent := k =? 1; pt_gap := k =? 2 |} (y_next s)) s).
Proof.
  intros H [N1 N2].
  assert (item_ok (str "DURATION=" ++ secs d)) as I1
    by (apply item_app; [apply item_clean; reflexivity | apply item_secs; lia]).
  assert (item_ok (qattr "URI" u)) as I2 by (apply item_qattr; [reflexivity | reflexivity | exact N2]).
  replace (secs d ++ flag_text k ++ str ",URI=""" ++ u ++ [quote] ++ [nl])
    with ((secs d ++ flag_text k ++ str ",URI=""" ++ u ++ [quote]) ++ [nl])
    by (rewrite <- !app_assoc; reflexivity).
  apply plays_tag.
  - apply nob_no; reflexivity.
  - rewrite !no_app. repeat split.
    + apply secs_no; [lia | reflexivity | lia].
    + unfold flag_text. destruct (k =? 1); [apply nob_no; reflexivity|]. destruct (k =? 2); apply nob_no; reflexivity.
    + apply nob_no; reflexivity.
    + exact N1.
    + apply nob_no; reflexivity.
  - assert (on_line s (str "#EXT-X-PART:DURATION=" ++ secs d ++ flag_text k ++ str ",URI=""" ++ u ++ [quote])
      = on_part ((str "DURATION=" ++ secs d) ++ flag_text k ++ 44 :: qattr "URI" u) s) as ->.
    { change (str "#EXT-X-PART:DURATION=") with (str "#EXT-X-PART:" ++ str "DURATION=").
      rewrite <- !app_assoc. reflexivity. }
    unfold on_part, attr_text, attr.
    assert (items false ((str "DURATION=" ++ secs d) ++ flag_text k ++ 44 :: qattr "URI" u)
      = (str "DURATION=" ++ secs d) ::
        (if k =? 1 then [str "INDEPENDENT=YES"] else if k =? 2 then [str "GAP=YES"] else []) ++ [qattr "URI" u]) as ->.
    { unfold flag_text. destruct (k =? 1).
      - change (str ",INDEPENDENT=YES" ++ 44 :: qattr "URI" u) with (44 :: str "INDEPENDENT=YES" ++ 44 :: qattr "URI" u).
        rewrite items_comma by exact I1. rewrite items_comma by (apply item_clean; reflexivity).
        rewrite items_last by exact I2. reflexivity.
      - destruct (k =? 2).
        + change (str ",GAP=YES" ++ 44 :: qattr "URI" u) with (44 :: str "GAP=YES" ++ 44 :: qattr "URI" u).
          rewrite items_comma by exact I1. rewrite items_comma by (apply item_clean; reflexivity).
          rewrite items_last by exact I2. reflexivity.
        + cbn [app]. rewrite items_comma by exact I1. rewrite items_last by exact I2. reflexivity. }
    set (rest := (if k =? 1 then [str "INDEPENDENT=YES"] else if k =? 2 then [str "GAP=YES"] else []) ++ [qattr "URI" u]).
    assert (find_attr (str "URI" ++ [61]) ((str "DURATION=" ++ secs d) :: rest) = Some ([34] ++ u ++ [34])) as ->.
    { unfold rest. destruct (k =? 1); [reflexivity|]. destruct (k =? 2); reflexivity. }
    assert (yes (find_attr (str "INDEPENDENT" ++ [61]) ((str "DURATION=" ++ secs d) :: rest)) = (k =? 1)) as ->.
    { unfold rest. destruct (k =? 1); [reflexivity|]. destruct (k =? 2); reflexivity. }
    assert (yes (find_attr (str "GAP" ++ [61]) ((str "DURATION=" ++ secs d) :: rest)) = (k =? 2)) as ->.
    { unfold rest. destruct (k =? 1) eqn:E; [replace (k =? 2) with false by lia; reflexivity|]. destruct (k =? 2); reflexivity. }
    change (find_attr (str "DURATION" ++ [61]) ((str "DURATION=" ++ secs d) :: rest)) with (Some (secs d)).
    cbv beta iota. rewrite unquote_quoted by exact N2. rewrite millis_secs by exact H. reflexivity.
Qed.

Lemma plays_hint s u : tame u ->
  plays s (str "#EXT-X-PRELOAD-HINT:TYPE=PART" ++ str ",URI=""" ++ u ++ [quote] ++ [nl]) (set_hint u s).
Proof.
  intros [N1 N2].
  assert (item_ok (qattr "URI" u)) as I2 by (apply item_qattr; [reflexivity | reflexivity | exact N2]).
  replace (str ",URI=""" ++ u ++ [quote] ++ [nl])
    with ((str ",URI=""" ++ u ++ [quote]) ++ [nl]) by (rewrite <- !app_assoc; reflexivity).
  apply plays_tag.
  - apply nob_no; reflexivity.
  - rewrite !no_app. repeat split; [apply nob_no; reflexivity | exact N1 | apply nob_no; reflexivity].
  - change (on_line s (str "#EXT-X-PRELOAD-HINT:TYPE=PART" ++ str ",URI=""" ++ u ++ [quote]))
      with (on_hint (str "TYPE=PART" ++ 44 :: qattr "URI" u) s).
    unfold on_hint, attr_text, attr.
    rewrite items_comma by (apply item_clean; reflexivity). rewrite items_last by exact I2.
    change (find_attr (str "TYPE" ++ [61]) [str "TYPE=PART"; qattr "URI" u]) with (Some (str "PART")).
    change (find_attr (str "URI" ++ [61]) [str "TYPE=PART"; qattr "URI" u]) with (Some ([34] ++ u ++ [34])).
    cbv beta iota. rewrite unquote_quoted by exact N2. reflexivity.
Qed.
