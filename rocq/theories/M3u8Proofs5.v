(* The parts and the segments of a period. *)
From Coq Require Import String Ascii ZArith List Bool Lia ZifyBool.
From Verif Require Import Bytes M3u8Model M3u8Spec M3u8Proofs M3u8Proofs2 M3u8Proofs4.
Import ListNotations.
Open Scope Z_scope.

(* ----- the flags of a part *)

Definition part_flag (d : Z) : Z := if 2 ^ 31 <=? d then 1 else if 2 ^ 30 <=? d then 2 else 0.

Lemma land_bit d n : 0 <= n -> (Z.land d (2 ^ n) =? 0) = negb (Z.testbit d n).
Proof.
  intros N. destruct (Z.testbit d n) eqn:E; cbn [negb].
  - apply Z.eqb_neq. intros H. assert (Z.testbit (Z.land d (2 ^ n)) n = false) as X by (rewrite H; apply Z.testbit_0_l).
    rewrite Z.land_spec, E, Z.pow2_bits_true in X by exact N. discriminate.
  - apply Z.eqb_eq. apply Z.bits_inj'. intros k K. rewrite Z.land_spec, Z.testbit_0_l, Z.pow2_bits_eqb by exact N.
    destruct (n =? k) eqn:Ek; [|apply andb_false_r]. apply Z.eqb_eq in Ek. subst k. rewrite E. reflexivity.
Qed.

Lemma bit31 d : 0 <= d < 2 ^ 32 -> Z.testbit d 31 = (2 ^ 31 <=? d).
Proof.
  intros H. destruct (2 ^ 31 <=? d) eqn:E.
  - apply Z.testbit_true; [lia|]. replace (d / 2 ^ 31) with 1; [reflexivity|]. apply Z.div_unique with (d - 2 ^ 31); lia.
  - apply Z.testbit_false; [lia|]. rewrite Z.div_small by lia. reflexivity.
Qed.
Lemma bit30 d : 0 <= d < 2 ^ 31 -> Z.testbit d 30 = (2 ^ 30 <=? d).
Proof.
  intros H. destruct (2 ^ 30 <=? d) eqn:E.
  - apply Z.testbit_true; [lia|]. replace (d / 2 ^ 30) with 1; [reflexivity|]. apply Z.div_unique with (d - 2 ^ 30); lia.
  - apply Z.testbit_false; [lia|]. rewrite Z.div_small by lia. reflexivity.
Qed.

Lemma part_flag_text d : 0 <= d < 2 ^ 32 ->
  (if negb (Z.land d PART_INDEPENDENT =? 0) then str ",INDEPENDENT=YES"
   else if negb (Z.land d PART_GAP =? 0) then str ",GAP=YES" else []) = flag_text (part_flag d).
Proof.
  intros H. change PART_INDEPENDENT with (2 ^ 31). change PART_GAP with (2 ^ 30). rewrite !land_bit by lia.
  rewrite bit31 by exact H. unfold part_flag. destruct (2 ^ 31 <=? d) eqn:E; cbn [negb]; [reflexivity|].
  rewrite bit30 by lia. destruct (2 ^ 30 <=? d); reflexivity.
Qed.

Lemma part_mask d : Z.land d PART_MASK = d mod 2 ^ 30.
Proof. change PART_MASK with (Z.ones 30). apply Z.land_ones. lia. Qed.

(* ----- the parts of a segment *)


Definition scale (c : channel) : Z := c_timescale c / 1000.
Lemma scale_pos f c : chan_ok f c -> 1 <= scale c.
Proof. intros (H & _). unfold scale. apply Z.div_le_lower_bound; lia. Qed.

Lemma ms_step c t d : 1 <= scale c -> 0 <= d -> 0 <= ms_of c (t + d) - ms_of c t <= d.
Proof.
  intros S D. unfold ms_of. fold (scale c).
  pose proof (Z.div_le_mono t (t + d) (scale c) ltac:(lia) ltac:(lia)).
  split; [lia|].
  pose proof (Z.mul_div_le t (scale c) ltac:(lia)). pose proof (Z.mul_succ_div_gt t (scale c) ltac:(lia)).
  pose proof (Z.mul_div_le (t + d) (scale c) ltac:(lia)).
  set (a := t / scale c) in *. set (b := (t + d) / scale c) in *. clearbody a b.
  nia.
Qed.


Lemma plist_cons d l : plist_ok (d :: l) -> 0 <= d < 2 ^ 32 /\ plist_ok l /\ (d = PRELOAD_HINT -> l = []).
Proof.
  intros [A B]. inversion A; subst. split; [assumption|]. split; [split; [assumption|]|].
  - destruct l as [|e l]; [constructor|]. cbn [removelast] in B. inversion B; subst. assumption.
  - intros ->. destruct l as [|e l]; [reflexivity|]. cbn [removelast] in B. inversion B; subst. congruence.
Qed.

Definition hint_list (f : conf) (c : channel) (i k : Z) (l : list Z) : option (list Z) :=
  match rev l with
  | d :: r => if d =? PRELOAD_HINT then Some (part_uri f c i (zlen r + k)) else None
  | [] => None
  end.

Definition orelse {A} (a b : option A) : option A := match a with Some x => Some x | None => b end.

Definition add_parts (l : list part) (h : option (list Z)) (s : player) : player :=
  {| y_info := y_info s;
     y_next := {| x_ms := x_ms (y_next s); x_discontinuity := x_discontinuity (y_next s); x_gap := x_gap (y_next s);
                  x_date := x_date (y_next s); x_parts := x_parts (y_next s) ++ l |};
     y_map := y_map s; y_rate := y_rate s; y_segs := y_segs s; y_hint := orelse h (y_hint s); y_reports := y_reports s |}.

Lemma add_parts_nil s : add_parts [] None s = s.
Proof. destruct s as [? [] ? ? ? ? ?]. unfold add_parts. cbn. rewrite app_nil_r. reflexivity. Qed.

Lemma hint_cons f c i k d l : l <> [] -> hint_list f c i k (d :: l) = hint_list f c i (k + 1) l.
Proof.
  intros N. unfold hint_list. cbn [rev]. destruct (rev l) as [|x r] eqn:E.
  - apply (f_equal (@rev Z)) in E. rewrite rev_involutive in E. cbn in E. congruence.
  - cbn [app]. destruct (x =? PRELOAD_HINT); [|reflexivity]. do 2 f_equal. unfold zlen. rewrite app_length. cbn [length]. lia.
Qed.

Lemma suffix_uri f c : removelast (seg_suffix f c) = selector c ++ f_seg_ext f.
Proof. unfold seg_suffix. rewrite app_assoc, removelast_last. reflexivity. Qed.

Lemma part_uri_tame f c i k : chan_ok f c -> tame (part_uri f c i k).
Proof.
  intros (_ & B & T & _). unfold part_uri. repeat (apply tame_app; [first [apply tameb; reflexivity | apply dec_tame | apply sep_tame; exact B]|]).
  exact T.
Qed.

Lemma plays_parts f c i l : chan_ok f c -> forall s k t, plist_ok l ->
  plays s (parts_loop (scale c) (seg_suffix f c) (i + 1) (k - 1) t (ms_of c t) l)
    (add_parts (parts_from f c i k t l) (hint_list f c i k l) s).
Proof.
  intros CO. induction l as [|d l IH]; intros s k t P.
  - cbn [parts_loop parts_from]. rewrite add_parts_nil. apply plays_nil.
  - apply plist_cons in P. destruct P as (D & P & H). cbn [parts_loop parts_from].
    replace (k - 1 + 1) with (k + 1 - 1) by lia. rewrite suffix_uri.
    assert (str ",URI=""" ++ str "part" ++ str "-" ++ dec (i + 1) ++ str "-" ++ dec (k + 1 - 1) ++ (selector c ++ f_seg_ext f) ++ [quote] ++ [nl]
      = str ",URI=""" ++ part_uri f c i k ++ [quote] ++ [nl]) as ->.
    { unfold part_uri. change (str "part-") with (str "part" ++ str "-"). replace (k + 1 - 1) with k by lia. rewrite <- !app_assoc. reflexivity. }
    destruct (d =? PRELOAD_HINT) eqn:E.
    + assert (l = []) as -> by (apply H; lia). cbn [parts_loop]. rewrite app_nil_r.
      assert (add_parts [] (hint_list f c i k [d]) s = set_hint (part_uri f c i k) s) as ->.
      { unfold hint_list. cbn [rev app]. rewrite E. destruct s as [? [] ? ? ? ? ?]. unfold add_parts, set_hint. cbn. rewrite app_nil_r. reflexivity. }
      apply plays_hint. apply part_uri_tame. exact CO.
    + rewrite part_mask, part_flag_text by exact D.
      pose proof (ms_step c t (d mod 2 ^ 30) (scale_pos _ _ CO) ltac:(apply Z.mod_pos_bound; lia)) as M.
      pose proof (Z.mod_pos_bound d (2 ^ 30) ltac:(lia)) as M2.
      change ((t + d mod 2 ^ 30) / scale c) with (ms_of c (t + d mod 2 ^ 30)).
      rewrite u32_small by lia.
      set (t' := t + d mod 2 ^ 30) in *.
      match goal with |- plays _ ?x _ => assert (x =
        (str "#EXT-X-PART:DURATION=" ++ secs (ms_of c t' - ms_of c t) ++ flag_text (part_flag d) ++ str ",URI=""" ++ part_uri f c i k ++ [quote] ++ [nl])
        ++ parts_loop (scale c) (seg_suffix f c) (i + 1) (k + 1 - 1) t' (ms_of c t') l) as -> by (rewrite <- !app_assoc; reflexivity) end.
      eapply plays_app; [apply plays_part; [lia | apply part_uri_tame; exact CO]|].
      assert (add_parts
         ({| pt_uri := part_uri f c i k; pt_ms := ms_of c t' - ms_of c t; pt_independent := 2 ^ 31 <=? d;
             pt_gap := negb (2 ^ 31 <=? d) && (2 ^ 30 <=? d) |} :: parts_from f c i (k + 1) t' l) (hint_list f c i k (d :: l)) s
        = add_parts (parts_from f c i (k + 1) t' l) (hint_list f c i (k + 1) l)
            (set_next (with_part {| pt_uri := part_uri f c i k; pt_ms := ms_of c t' - ms_of c t;
               pt_independent := part_flag d =? 1; pt_gap := part_flag d =? 2 |} (y_next s)) s)) as ->; [|apply IH; exact P].
      unfold add_parts, set_next, with_part. cbn [y_info y_next y_map y_rate y_segs y_hint y_reports x_ms x_discontinuity x_gap x_date x_parts].
      rewrite <- app_assoc. cbn [app].
      assert ((part_flag d =? 1) = (2 ^ 31 <=? d)) as -> by (unfold part_flag; destruct (2 ^ 31 <=? d), (2 ^ 30 <=? d); reflexivity).
      assert ((part_flag d =? 2) = negb (2 ^ 31 <=? d) && (2 ^ 30 <=? d)) as -> by (unfold part_flag; destruct (2 ^ 31 <=? d), (2 ^ 30 <=? d); reflexivity).
      assert (hint_list f c i k (d :: l) = hint_list f c i (k + 1) l) as ->; [|reflexivity].
      destruct l as [|x l]; [|apply hint_cons; discriminate]. unfold hint_list. cbn [rev app]. rewrite E. reflexivity.
Qed.


(* what is left of the parts at segment [i] *)
Definition left_at (c : channel) (i : Z) : list (Z * list Z) :=
  match c_tracks c with [t] => skip_parts i (t_parts t) | _ => [] end.

Lemma left_find c i : Forall tparts_ok (c_tracks c) ->
  match left_at c i with
  | p :: _ => if fst p =? i then parts_at i c = snd p else parts_at i c = []
  | [] => parts_at i c = []
  end.
Proof.
  intros T. unfold left_at, parts_at. destruct (c_tracks c) as [|t [|? ?]]; [reflexivity| |reflexivity].
  inversion T as [|? ? [T1 T2]]; subst. rewrite skip_find by exact T1. destruct (skip_parts i (t_parts t)) as [|p r]; [reflexivity|].
  destruct (fst p =? i); reflexivity.
Qed.

Lemma left_next c i : Forall tparts_ok (c_tracks c) ->
  left_at c (i + 1) = match left_at c i with p :: r => if fst p =? i then r else p :: r | [] => [] end.
Proof.
  intros T. unfold left_at. destruct (c_tracks c) as [|t [|? ?]]; [reflexivity| |reflexivity].
  inversion T as [|? ? [T1 T2]]; subst. apply skip_next. exact T1.
Qed.

Lemma left_ok c i : Forall tparts_ok (c_tracks c) -> Forall (fun ps => 0 <= fst ps < INVALID_INDEX /\ plist_ok (snd ps)) (left_at c i).
Proof.
  intros T. unfold left_at. destruct (c_tracks c) as [|t [|? ?]]; [constructor| |constructor].
  inversion T as [|? ? [T1 T2]]; subst. clear - T2. induction (t_parts t) as [|p l IH]; [constructor|].
  cbn [skip_parts]. inversion T2; subst. destruct (fst p >=? i); [exact T2 | apply IH; assumption].
Qed.

(* the parts of segment [i], whether there are some or not *)
Definition parts_here (c : channel) (sfx : list Z) (i t : Z) : list Z :=
  if i =? part_index (left_at c i)
  then match left_at c i with p :: _ => parts_write (scale c) sfx t p | [] => [] end else [].

Lemma plays_here f c s i t : chan_ok f c -> Forall tparts_ok (c_tracks c) -> i < INVALID_INDEX ->
  plays s (parts_here c (seg_suffix f c) i t) (add_parts (parts_of f c i t) (hint_in f c i) s).
Proof.
  intros CO T I. unfold parts_here. pose proof (left_find c i T) as L. pose proof (left_ok c i T) as O.
  destruct (left_at c i) as [|p r]; cbn [part_index].
  - assert (i =? INVALID_INDEX = false) as -> by lia. unfold parts_of, hint_in. rewrite L. cbn [parts_from rev]. rewrite add_parts_nil. apply plays_nil.
  - rewrite Z.eqb_sym. destruct (fst p =? i) eqn:E.
    + unfold parts_write. inversion O as [|? ? [O1 O2] O3]; subst. assert (fst p = i) as -> by lia. rewrite u32_small by (unfold INVALID_INDEX in *; lia).
      unfold parts_of, hint_in. rewrite L. pose proof (plays_parts f c i (snd p) CO s 1 t O2) as X.
      unfold hint_list in X. exact X.
    + unfold parts_of, hint_in. rewrite L. cbn [parts_from rev]. rewrite add_parts_nil. apply plays_nil.
Qed.
