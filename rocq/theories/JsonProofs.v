From Coq Require Import List ZArith Bool Lia ZifyBool ZifyNat.
From Verif Require Import JsonModel JsonSpec.
Import ListNotations.
Local Open Scope Z_scope.

Scheme value_mut := Minimality for value Sort Prop
  with array_mut := Minimality for array Sort Prop
  with items_mut := Minimality for items Sort Prop
  with element_mut := Minimality for element Sort Prop
  with object_mut := Minimality for object Sort Prop
  with members_mut := Minimality for members Sort Prop
  with member_mut := Minimality for member Sort Prop.
Combined Scheme json_ind from value_mut, array_mut, items_mut, element_mut, object_mut, members_mut, member_mut.

(* --- white space --- *)
Lemma isspace_ws : forall c, isspace c = true <-> ws_char c.
Proof. intros c. unfold isspace, ws_char. cbn [In]. lia. Qed.
Lemma space_cond : forall c, negb (c =? 0) && isspace c = true <-> ws_char c.
Proof. intros c. rewrite <- isspace_ws. unfold isspace. lia. Qed.
Lemma space_cond_f : forall c, ~ ws_char c -> negb (c =? 0) && isspace c = false.
Proof. intros c H. destruct (negb (c =? 0) && isspace c) eqn:E; [|reflexivity]. apply space_cond in E. contradiction. Qed.

Lemma skip_ws : forall w c r, ws w -> ~ ws_char c -> skip_spaces (w ++ c :: r) = Some (c :: r).
Proof.
  induction w as [|x w IH]; intros c r Hw Hc.
  - cbn [app skip_spaces]. now rewrite space_cond_f.
  - inversion Hw; subst. cbn [app skip_spaces]. apply space_cond in H1. rewrite H1. now apply IH.
Qed.
Lemma skip_inv : forall s s', skip_spaces s = Some s' ->
  exists w c r, ws w /\ s = w ++ s' /\ s' = c :: r /\ ~ ws_char c.
Proof.
  induction s as [|x s IH]; intros s' H; cbn [skip_spaces] in H; [discriminate|].
  destruct (negb (x =? 0) && isspace x) eqn:E.
  - destruct (IH _ H) as (w & c & r & Hw & -> & -> & Hc).
    exists (x :: w), c, r. repeat split; auto. constructor; [now apply space_cond|auto].
  - injection H as <-. exists [], x, s. repeat split; auto. constructor.
    intros Hx. apply space_cond in Hx. congruence.
Qed.
Lemma peek_ws : forall A w c r (f : Z -> list Z -> jres A), ws w -> ~ ws_char c ->
  skip_peek (w ++ c :: r) f = f c r.
Proof. intros. unfold skip_peek. now rewrite skip_ws. Qed.
Lemma peek_inv : forall A s (f : Z -> list Z -> jres A) a rest, skip_peek s f = JOk a rest ->
  exists w c r, ws w /\ ~ ws_char c /\ s = w ++ c :: r /\ f c r = JOk a rest.
Proof.
  intros A s f a rest H. unfold skip_peek in H. destruct (skip_spaces s) as [s'|] eqn:E; [|discriminate].
  destruct (skip_inv _ _ E) as (w & c & r & Hw & -> & -> & Hc). eauto 8.
Qed.
Lemma bind_inv : forall A B (r : jres A) (f : A -> list Z -> jres B) b rest, jbind r f = JOk b rest ->
  exists a s, r = JOk a s /\ f a s = JOk b rest.
Proof. intros A B [a s| | |] f b rest H; cbn in H; try discriminate. eauto. Qed.

(* --- strings --- *)
Lemma parse_string_ok : forall s e, chars s e -> forall e0 raw rest,
  parse_string (s ++ 34 :: rest) e0 raw = JOk (VStr (e0 || e) (rev raw ++ s)) rest.
Proof.
  induction 1 as [|c s e H0 H34 H92 H IH|c s e H0 H IH]; intros e0 raw rest.
  - cbn. now rewrite orb_false_r, app_nil_r.
  - cbn [app parse_string].
    destruct (c =? 0) eqn:E1; [lia|]. destruct (c =? 92) eqn:E2; [lia|]. destruct (c =? 34) eqn:E3; [lia|].
    rewrite IH. cbn [rev]. now rewrite <- app_assoc.
  - cbn [app parse_string]. cbn [Z.eqb Pos.eqb].
    destruct (c =? 0) eqn:E1; [lia|]. rewrite IH. cbn [rev]. rewrite <- !app_assoc. cbn. now rewrite orb_true_r.
Qed.
Lemma parse_string_inv : forall k s, (length s <= k)%nat -> forall e0 raw v rest, parse_string s e0 raw = JOk v rest ->
  exists t e, chars t e /\ s = t ++ 34 :: rest /\ v = VStr (e0 || e) (rev raw ++ t).
Proof.
  induction k as [|k IH]; intros s Hk e0 raw v rest H; destruct s as [|c s]; cbn [length] in Hk; try discriminate; [lia|].
  cbn [parse_string] in H. destruct (c =? 0) eqn:E1; [discriminate|].
  destruct (c =? 92) eqn:E2.
  - destruct s as [|c' s]; [discriminate|]. destruct (c' =? 0) eqn:E3; [discriminate|].
    cbn [length] in Hk. destruct (IH s ltac:(lia) _ _ _ _ H) as (t & e & Ht & -> & ->).
    exists (92 :: c' :: t), true. assert (c = 92) as -> by lia. repeat split.
    + apply chars_escape with (e := e); [lia|auto].
    + f_equal; [now rewrite !orb_true_r|]. cbn [rev]. now rewrite <- !app_assoc.
  - destruct (c =? 34) eqn:E3.
    + injection H as <- <-. exists [], false. assert (c = 34) as -> by lia. repeat split; [constructor|].
      now rewrite orb_false_r, app_nil_r.
    + destruct (IH s ltac:(lia) _ _ _ _ H) as (t & e & Ht & -> & ->).
      exists (c :: t), e. repeat split; [constructor; auto; lia|]. cbn [rev]. now rewrite <- app_assoc.
Qed.

Lemma lower_upper : forall c, 65 <= c <= 90 -> lower c = c + 32.
Proof.
  intros c H. unfold lower. replace ((65 <=? c) && (c <=? 90)) with true by lia.
  assert (Hc : c = 65 \/ c = 66 \/ c = 67 \/ c = 68 \/ c = 69 \/ c = 70 \/ c = 71 \/ c = 72 \/ c = 73 \/ c = 74
    \/ c = 75 \/ c = 76 \/ c = 77 \/ c = 78 \/ c = 79 \/ c = 80 \/ c = 81 \/ c = 82 \/ c = 83 \/ c = 84 \/ c = 85
    \/ c = 86 \/ c = 87 \/ c = 88 \/ c = 89 \/ c = 90) by lia.
  repeat destruct Hc as [Hc|Hc]; subst c; reflexivity.
Qed.
Lemma lower_other : forall c, ~ 65 <= c <= 90 -> lower c = c.
Proof. intros c H. unfold lower. now replace ((65 <=? c) && (c <=? 90)) with false by lia. Qed.

Definition hfold (h0 : Z) (h : list Z) : Z := fold_left (fun a c => (a * 31 + c) mod 2 ^ 64) h h0.
Lemma parse_key_ok : forall s k h, key_of s k h -> forall h0 raw rest,
  parse_key (s ++ 34 :: rest) h0 raw = JOk (rev raw ++ k, hfold h0 h) rest.
Proof.
  induction 1 as [|c s k h Hu H92 H IH|c s k h Hu H0 H34 H92 H IH|c s k h H0 H IH]; intros h0 raw rest.
  - cbn. now rewrite app_nil_r.
  - cbn [app parse_key]. rewrite lower_upper by auto. cbn zeta.
    destruct (c =? 0) eqn:E1; [lia|]. destruct (c + 32 =? 92) eqn:E2; [lia|]. destruct (c + 32 =? 34) eqn:E3; [lia|].
    rewrite IH. cbn [rev]. rewrite <- app_assoc. reflexivity.
  - cbn [app parse_key]. rewrite lower_other by auto. cbn zeta.
    destruct (c =? 0) eqn:E1; [lia|]. destruct (c =? 92) eqn:E2; [lia|]. destruct (c =? 34) eqn:E3; [lia|].
    rewrite IH. cbn [rev]. rewrite <- app_assoc. reflexivity.
  - cbn [app parse_key]. rewrite lower_other by lia. cbn [Z.eqb Pos.eqb].
    destruct (c =? 0) eqn:E1; [lia|]. rewrite IH. cbn [rev]. rewrite <- !app_assoc. reflexivity.
Qed.
Lemma parse_key_inv : forall n s, (length s <= n)%nat -> forall h0 raw kh rest, parse_key s h0 raw = JOk kh rest ->
  exists t k h, key_of t k h /\ s = t ++ 34 :: rest /\ kh = (rev raw ++ k, hfold h0 h).
Proof.
  induction n as [|n IH]; intros s Hn h0 raw kh rest H; destruct s as [|c s]; cbn [length] in Hn; try discriminate; [lia|].
  cbn [parse_key] in H. cbn zeta in H. destruct (c =? 0) eqn:E1; [discriminate|].
  destruct (Z_le_dec 65 c) as [H65|H65], (Z_le_dec c 90) as [H90|H90].
  1: { rewrite lower_upper in H by lia.
    destruct (c + 32 =? 92) eqn:E2; [lia|]. destruct (c + 32 =? 34) eqn:E3; [lia|].
    destruct (IH s ltac:(lia) _ _ _ _ H) as (t & k & h & Ht & -> & ->).
    exists (c :: t), (c + 32 :: k), (c + 32 :: h). repeat split; [constructor; auto; lia|].
    cbn [rev]. rewrite <- app_assoc. reflexivity. }
  all: rewrite lower_other in H by lia; destruct (c =? 92) eqn:E2;
    [ destruct s as [|c' s]; [discriminate|]; destruct (c' =? 0) eqn:E3; [discriminate|];
      cbn [length] in Hn; destruct (IH s ltac:(lia) _ _ _ _ H) as (t & k & h & Ht & -> & ->);
      exists (92 :: c' :: t), (92 :: c' :: k), (92 :: h); assert (c = 92) as -> by lia; repeat split;
      [ constructor; auto; lia | cbn [rev]; rewrite <- !app_assoc; reflexivity ]
    | destruct (c =? 34) eqn:E3;
      [ injection H as <- <-; exists [], [], []; assert (c = 34) as -> by lia; repeat split; [constructor|];
        cbn; now rewrite app_nil_r
      | destruct (IH s ltac:(lia) _ _ _ _ H) as (t & k & h & Ht & -> & ->);
        exists (c :: t), (c :: k), (c :: h); repeat split; [constructor; auto; lia|];
        cbn [rev]; rewrite <- app_assoc; reflexivity ] ].
Qed.

(* --- numbers --- *)
Definition dfold (v : Z) (ds : list Z) : Z := fold_left (fun v c => v * 10 + (c - 48)) ds v.
Lemma dfold_app : forall ds fs v, dfold v (ds ++ fs) = dfold (dfold v ds) fs.
Proof. intros. unfold dfold. apply fold_left_app. Qed.
Lemma dfold_ge : forall ds v, digits ds -> 0 <= v -> v <= dfold v ds.
Proof.
  induction ds as [|c ds IH]; intros v Hd Hv; cbn; [lia|]. inversion Hd; subst.
  specialize (IH (v * 10 + (c - 48)) H2 ltac:(lia)). unfold dfold in IH. lia.
Qed.
Lemma dfold_lin : forall ds v, dfold v ds = v * 10 ^ Z.of_nat (length ds) + decimal ds.
Proof.
  induction ds as [|c ds IH]; intros v.
  - cbn. lia.
  - change (dfold v (c :: ds)) with (dfold (v * 10 + (c - 48)) ds).
    change (decimal (c :: ds)) with (dfold (0 * 10 + (c - 48)) ds). rewrite !IH. cbn [length].
    replace (Z.of_nat (S (length ds))) with (Z.succ (Z.of_nat (length ds))) by lia.
    rewrite Z.pow_succ_r by lia. ring.
Qed.
Lemma decimal_app : forall ds fs, decimal (ds ++ fs) = decimal ds * 10 ^ Z.of_nat (length fs) + decimal fs.
Proof. intros. unfold decimal at 1. fold (dfold 0 (ds ++ fs)). rewrite dfold_app. rewrite dfold_lin. reflexivity. Qed.

Lemma decimal_dfold : forall ds fs, decimal (ds ++ fs) = dfold (decimal ds) fs.
Proof. intros. exact (dfold_app ds fs 0). Qed.

Lemma digits_ok : forall c, isdigit c = true <-> 48 <= c <= 57.
Proof. intros. unfold isdigit. lia. Qed.

(* the value before the last digit *)
Lemma dfold_last : forall c ds v, digits (c :: ds) -> 0 <= v -> v <= dfold v (c :: ds) / 10.
Proof.
  intros c ds v Hd Hv. inversion Hd; subst. cbn [dfold fold_left].
  pose proof (dfold_ge ds (v * 10 + (c - 48)) H2 ltac:(lia)) as H. unfold dfold in H.
  apply Z.div_le_lower_bound; lia.
Qed.

Definition nondigit_head (s : list Z) : Prop := exists c r, s = c :: r /\ ~ 48 <= c <= 57.

Lemma lm10 : llong_max / 10 - 1 = 922337203685477579.
Proof. reflexivity. Qed.
Lemma um10 : ullong_max / 10 = 1844674407370955161.
Proof. reflexivity. Qed.

Lemma int_loop_ok : forall ds v rest, ds <> [] -> digits ds -> 0 <= v -> dfold v ds / 10 <= 922337203685477579 ->
  nondigit_head rest -> int_loop (ds ++ rest) v = JOk (dfold v ds) rest.
Proof.
  induction ds as [|c ds IH]; intros v rest Hne Hd Hv Hf Hr; [congruence|].
  pose proof (dfold_last _ _ _ Hd Hv) as HL.
  cbn [app int_loop]. rewrite lm10.
  destruct (v >? 922337203685477579) eqn:E; [lia|]. cbn zeta.
  inversion Hd; subst.
  destruct (v * 10 + (c - 48) >? llong_max) eqn:E2; [unfold llong_max in E2; lia|].
  destruct ds as [|c' ds].
  - destruct Hr as (c' & r & -> & Hc'). cbn [app]. destruct (isdigit c') eqn:E3; [apply digits_ok in E3; lia|]. reflexivity.
  - cbn [app]. inversion H2; subst. destruct (isdigit c') eqn:E3; [|apply digits_ok in H3; congruence].
    change (c' :: ds ++ rest) with ((c' :: ds) ++ rest). rewrite IH; auto; [discriminate|lia].
Qed.
Lemma int_loop_inv : forall s v x rest, 0 <= v -> int_loop s v = JOk x rest ->
  (exists c r, s = c :: r /\ 48 <= c <= 57) ->
  exists ds, ds <> [] /\ digits ds /\ dfold v ds / 10 <= 922337203685477579 /\ nondigit_head rest
    /\ s = ds ++ rest /\ x = dfold v ds.
Proof.
  induction s as [|c s IH]; intros v x rest Hv H (c0 & r0 & E0 & Hc0); [discriminate|].
  injection E0 as <- <-. cbn [int_loop] in H. rewrite lm10 in H.
  destruct (v >? 922337203685477579) eqn:E; [discriminate|]. cbn zeta in H.
  destruct (v * 10 + (c - 48) >? llong_max) eqn:E2; [discriminate|].
  destruct s as [|c' s]; [discriminate|]. destruct (isdigit c') eqn:E3.
  - apply digits_ok in E3. destruct (IH (v * 10 + (c - 48)) _ _ ltac:(lia) H) as (ds & Hne & Hd & Hf & Hr & Hs & ->); [eauto|].
    exists (c :: ds). rewrite Hs. repeat split; auto; [discriminate|constructor; auto].
  - injection H as <- <-. exists [c]. repeat split; [discriminate|constructor; auto; constructor| |].
    + change (dfold v [c]) with (v * 10 + (c - 48)). apply Z.lt_succ_r. apply Z.div_lt_upper_bound; lia.
    + exists c', s. split; auto. intros Hd. apply digits_ok in Hd. congruence.
Qed.
Lemma int_loop_refuse : forall ds v rest, ds <> [] -> digits ds -> 0 <= v ->
  922337203685477579 < dfold v ds / 10 -> nondigit_head rest -> int_loop (ds ++ rest) v = JBad.
Proof.
  induction ds as [|c ds IH]; intros v rest Hne Hd Hv Hf Hr; [congruence|].
  cbn [app int_loop]. rewrite lm10.
  destruct (v >? 922337203685477579) eqn:E; [reflexivity|]. cbn zeta.
  inversion Hd; subst.
  destruct (v * 10 + (c - 48) >? llong_max) eqn:E2; [unfold llong_max in E2; lia|].
  destruct ds as [|c' ds].
  - change (dfold v [c]) with (v * 10 + (c - 48)) in Hf.
    assert ((v * 10 + (c - 48)) / 10 < 922337203685477580) by (apply Z.div_lt_upper_bound; lia). lia.
  - cbn [app]. inversion H2; subst. destruct (isdigit c') eqn:E3; [|apply digits_ok in H3; congruence].
    change (c' :: ds ++ rest) with ((c' :: ds) ++ rest). apply IH; auto; [discriminate|lia].
Qed.

Lemma minus_head : forall neg ds rest, ds <> [] -> digits ds ->
  exists c r, minus neg ++ ds ++ rest = c :: r /\ (c =? 45) = neg /\ (if neg then r else c :: r) = ds ++ rest
    /\ exists c' r', ds ++ rest = c' :: r' /\ 48 <= c' <= 57.
Proof.
  intros neg ds rest Hne Hd. destruct ds as [|c ds]; [congruence|]. inversion Hd; subst. destruct neg; cbn [minus app].
  - exists 45, (c :: ds ++ rest). repeat split. eauto.
  - exists c, (ds ++ rest). repeat split; [lia|]. eauto.
Qed.

Lemma parse_int_ok : forall neg ds rest, ds <> [] -> digits ds -> fits ds -> nondigit_head rest ->
  parse_int (minus neg ++ ds ++ rest) = JOk (decimal ds, neg) rest.
Proof.
  intros neg ds rest Hne Hd Hf Hr.
  destruct (minus_head neg ds rest Hne Hd) as (c & r & -> & Hc & Hs & c' & r' & Hs' & Hc').
  unfold parse_int. rewrite Hc. cbn zeta. rewrite Hs. rewrite Hs' at 1.
  destruct (isdigit c') eqn:E; [|apply digits_ok in Hc'; congruence].
  rewrite int_loop_ok; auto; lia.
Qed.
Lemma parse_int_refuse : forall neg ds rest, ds <> [] -> digits ds -> ~ fits ds -> nondigit_head rest ->
  parse_int (minus neg ++ ds ++ rest) = JBad.
Proof.
  intros neg ds rest Hne Hd Hf Hr.
  destruct (minus_head neg ds rest Hne Hd) as (c & r & -> & Hc & Hs & c' & r' & Hs' & Hc').
  unfold parse_int. rewrite Hc. cbn zeta. rewrite Hs. rewrite Hs' at 1.
  destruct (isdigit c') eqn:E; [|apply digits_ok in Hc'; congruence].
  rewrite int_loop_refuse; auto; [lia|]. unfold fits in Hf. unfold decimal in Hf. unfold dfold. lia.
Qed.
Lemma parse_int_inv : forall s x neg rest, parse_int s = JOk (x, neg) rest ->
  exists ds, ds <> [] /\ digits ds /\ fits ds /\ nondigit_head rest /\ s = minus neg ++ ds ++ rest /\ x = decimal ds.
Proof.
  intros s x neg rest H. unfold parse_int in H. destruct s as [|c r]; [discriminate|]. cbn zeta in H.
  destruct (if c =? 45 then r else c :: r) as [|c' r'] eqn:Es; [discriminate|].
  destruct (isdigit c') eqn:E; [|discriminate].
  destruct (int_loop (c' :: r') 0) as [v rs| | |] eqn:El; try discriminate. injection H as <- Hneg <-.
  apply digits_ok in E.
  destruct (int_loop_inv _ 0 _ _ ltac:(lia) El ltac:(eauto)) as (ds & Hne & Hd & Hf & Hr & Hs & ->).
  exists ds. repeat split; auto. subst neg. rewrite Hs in Es. destruct (c =? 45) eqn:E45.
  - assert (c = 45) as -> by lia. now rewrite Es.
  - now rewrite Es.
Qed.

Definition p10 (k : nat) : Z := 10 ^ Z.of_nat k.
Lemma p10_S : forall k, p10 (S k) = p10 k * 10.
Proof. intros. unfold p10. replace (Z.of_nat (S k)) with (Z.succ (Z.of_nat k)) by lia. rewrite Z.pow_succ_r by lia. lia. Qed.
Lemma p10_pos : forall k, 0 < p10 k.
Proof. intros. unfold p10. apply Z.pow_pos_nonneg; lia. Qed.
Lemma p10_le : forall a b, (a <= b)%nat -> p10 a <= p10 b.
Proof. intros. unfold p10. apply Z.pow_le_mono_r; lia. Qed.

Lemma frac_loop_ok : forall fs v k rest, fs <> [] -> digits fs -> 0 <= v -> dfold v fs / 10 <= 922337203685477579 ->
  (k + length fs <= 19)%nat -> nondigit_head rest ->
  frac_loop (fs ++ rest) v (p10 k) = JOk (dfold v fs, p10 (k + length fs)) rest.
Proof.
  induction fs as [|c fs IH]; intros v k rest Hne Hd Hv Hf Hk Hr; [congruence|].
  pose proof (dfold_last _ _ _ Hd Hv) as HL. cbn [length] in Hk.
  cbn [app frac_loop]. rewrite lm10, um10.
  assert (Hp : p10 k <= p10 18) by (apply p10_le; lia). change (p10 18) with 1000000000000000000 in Hp.
  pose proof (p10_pos k) as Hp0.
  destruct ((v >? 922337203685477579) || (p10 k >? 1844674407370955161)) eqn:E; [lia|]. cbn zeta.
  inversion Hd; subst.
  destruct (v * 10 + (c - 48) >? llong_max) eqn:E2; [unfold llong_max in E2; lia|].
  rewrite Z.mod_small by lia. rewrite <- p10_S.
  destruct fs as [|c' fs].
  - destruct Hr as (c' & r & -> & Hc'). cbn [app]. destruct (isdigit c') eqn:E3; [apply digits_ok in E3; lia|].
    cbn [length]. now rewrite Nat.add_1_r.
  - cbn [app]. inversion H2; subst. destruct (isdigit c') eqn:E3; [|apply digits_ok in H3; congruence].
    change (c' :: fs ++ rest) with ((c' :: fs) ++ rest). rewrite IH; auto; [|discriminate|lia|cbn [length] in *; lia].
    cbn [length]. now rewrite !Nat.add_succ_r, Nat.add_succ_l.
Qed.
Lemma frac_loop_inv : forall s v k x m rest, 0 <= v -> (k <= 19)%nat -> frac_loop s v (p10 k) = JOk (x, m) rest ->
  (exists c r, s = c :: r /\ 48 <= c <= 57) ->
  exists fs, fs <> [] /\ digits fs /\ dfold v fs / 10 <= 922337203685477579 /\ (k + length fs <= 19)%nat
    /\ nondigit_head rest /\ s = fs ++ rest /\ x = dfold v fs /\ m = p10 (k + length fs).
Proof.
  induction s as [|c s IH]; intros v k x m rest Hv Hk H (c0 & r0 & E0 & Hc0); [discriminate|].
  injection E0 as <- <-. cbn [frac_loop] in H. rewrite lm10, um10 in H.
  destruct ((v >? 922337203685477579) || (p10 k >? 1844674407370955161)) eqn:E; [discriminate|]. cbn zeta in H.
  destruct (v * 10 + (c - 48) >? llong_max) eqn:E2; [discriminate|].
  assert (Hk18 : (k <= 18)%nat).
  { destruct (Nat.eq_dec k 19) as [->|]; [|lia]. change (p10 19) with 10000000000000000000 in E. lia. }
  assert (Hp : p10 k <= p10 18) by (apply p10_le; lia). change (p10 18) with 1000000000000000000 in Hp.
  pose proof (p10_pos k) as Hp0.
  rewrite Z.mod_small in H by lia. rewrite <- p10_S in H.
  destruct s as [|c' s]; [discriminate|]. destruct (isdigit c') eqn:E3.
  - apply digits_ok in E3. destruct (IH (v * 10 + (c - 48)) (S k) _ _ _ ltac:(lia) ltac:(lia) H) as (fs & Hne & Hd & Hf & Hk' & Hr & Hs & -> & ->); [eauto|].
    exists (c :: fs). rewrite Hs. cbn [length]. rewrite Nat.add_succ_r, <- Nat.add_succ_l.
    repeat split; auto; [discriminate|constructor; auto].
  - injection H as <- <- <-. exists [c]. cbn [length]. rewrite Nat.add_1_r.
    repeat split; [discriminate|constructor; auto; constructor| |lia|].
    + change (dfold v [c]) with (v * 10 + (c - 48)). apply Z.lt_succ_r. apply Z.div_lt_upper_bound; lia.
    + exists c', s. split; auto. intros Hd. apply digits_ok in Hd. congruence.
Qed.

(* what may follow a value *)
Definition delim (s : list Z) : Prop :=
  exists c r, s = c :: r /\ (ws_char c \/ c = 44 \/ c = 93 \/ c = 125 \/ c = 0).
Lemma delim_nondigit : forall s, delim s -> nondigit_head s.
Proof. intros s (c & r & -> & H). exists c, r. split; auto. unfold ws_char in H. cbn [In] in H. lia. Qed.
Lemma delim_head : forall s, delim s -> exists c r, s = c :: r /\ c <> 46 /\ ~ 48 <= c <= 57.
Proof. intros s (c & r & -> & H). exists c, r. unfold ws_char in H. cbn [In] in H. repeat split; lia. Qed.
Lemma delim_ws : forall w c r, ws w -> c = 44 \/ c = 93 \/ c = 125 \/ c = 0 -> delim (w ++ c :: r).
Proof.
  intros [|x w] c r Hw Hc; cbn [app]; [exists c, r; tauto|]. inversion Hw; subst. exists x, (w ++ c :: r). tauto.
Qed.

Lemma parse_fraction_whole : forall neg ds rest, ds <> [] -> digits ds -> fits ds -> delim rest ->
  parse_fraction (minus neg ++ ds ++ rest) = JOk (signed neg (decimal ds), 1) rest.
Proof.
  intros neg ds rest Hne Hd Hf Hr. unfold parse_fraction. rewrite parse_int_ok; auto using delim_nondigit.
  cbn zeta. destruct (delim_head _ Hr) as (c & r & -> & Hc & _). destruct (c =? 46) eqn:E; [lia|]. reflexivity.
Qed.
Lemma parse_fraction_ok : forall neg ds fs rest, ds <> [] -> digits ds -> fs <> [] -> digits fs ->
  fits (ds ++ fs) -> (length fs <= 19)%nat -> nondigit_head rest ->
  parse_fraction (minus neg ++ ds ++ 46 :: fs ++ rest)
    = JOk (signed neg (decimal (ds ++ fs)), p10 (length fs)) rest.
Proof.
  intros neg ds fs rest Hne Hd Hfn Hfd Hf Hl Hr. unfold parse_fraction.
  assert (Hg : 0 <= decimal ds) by (apply (dfold_ge ds 0); auto; lia).
  rewrite parse_int_ok; auto.
  2: { unfold fits in *. assert (H : decimal ds <= decimal (ds ++ fs)).
       { unfold decimal at 2. fold (dfold 0 (ds ++ fs)). rewrite dfold_app. apply dfold_ge; auto. }
       apply Z.div_le_mono with (c := 10) in H; lia. }
  2: { exists 46, (fs ++ rest). split; auto. lia. }
  cbn zeta. cbn [Z.eqb Pos.eqb].
  destruct fs as [|c fs]; [congruence|]. cbn [app]. inversion Hfd; subst.
  destruct (isdigit c) eqn:E; [|apply digits_ok in H1; congruence].
  change (c :: fs ++ rest) with ((c :: fs) ++ rest). change 1 with (p10 0).
  rewrite frac_loop_ok; auto.
  - cbn [Nat.add]. now rewrite decimal_dfold.
  - unfold fits in Hf. now rewrite decimal_dfold in Hf.
Qed.
Lemma parse_fraction_inv : forall s x m rest, parse_fraction s = JOk (x, m) rest ->
  exists neg ds, ds <> [] /\ digits ds /\ nondigit_head rest /\
   ((m = 1 /\ x = signed neg (decimal ds) /\ fits ds /\ s = minus neg ++ ds ++ rest
      /\ exists c r, rest = c :: r /\ c <> 46) \/
    (exists fs, fs <> [] /\ digits fs /\ fits (ds ++ fs) /\ (length fs <= 19)%nat
       /\ s = minus neg ++ ds ++ 46 :: fs ++ rest
       /\ x = signed neg (decimal (ds ++ fs)) /\ m = p10 (length fs))).
Proof.
  intros s x m rest H. unfold parse_fraction in H.
  destruct (parse_int s) as [[v neg] s1| | |] eqn:Ei; try discriminate.
  destruct (parse_int_inv _ _ _ _ Ei) as (ds & Hne & Hd & Hf & Hr & -> & ->). cbn zeta in H.
  destruct s1 as [|c r]; [discriminate|]. destruct (c =? 46) eqn:E.
  - destruct r as [|c' r']; [discriminate|]. destruct (isdigit c') eqn:E'; [|discriminate].
    destruct (frac_loop (c' :: r') (decimal ds) 1) as [[v' d'] rs| | |] eqn:El; try discriminate.
    injection H as <- <- <-. apply digits_ok in E'. change 1 with (p10 0) in El.
    assert (Hg : 0 <= decimal ds) by (apply (dfold_ge ds 0); auto; lia).
    destruct (frac_loop_inv _ _ 0 _ _ _ Hg ltac:(lia) El ltac:(eauto)) as (fs & Hfn & Hfd & Hff & Hl & Hr' & Hs & -> & ->).
    exists neg, ds. repeat split; auto. right. exists fs. repeat split; auto.
    + unfold fits. now rewrite decimal_dfold.
    + assert (c = 46) as -> by lia. now rewrite Hs.
    + now rewrite decimal_dfold.
  - injection H as <- <- <-. exists neg, ds. repeat split; auto. left. repeat split; auto. exists c, r. split; auto. lia.
Qed.

Lemma expect_ok : forall lit rest, expect lit (lit ++ rest) = JOk tt rest.
Proof. induction lit as [|l lit IH]; intros rest; cbn; auto. rewrite Z.eqb_refl. auto. Qed.
Lemma expect_inv : forall lit s u rest, expect lit s = JOk u rest -> s = lit ++ rest.
Proof.
  induction lit as [|l lit IH]; intros s u rest H; cbn in H; [now injection H as _ ->|].
  destruct s as [|c r]; [discriminate|]. destruct (c =? l) eqn:E; [|discriminate].
  assert (c = l) as -> by lia. cbn. f_equal. eauto.
Qed.

Lemma skip_digits_ok : forall ds rest, digits ds -> nondigit_head rest -> skip_digits (ds ++ rest) = Some rest.
Proof.
  induction ds as [|c ds IH]; intros rest Hd Hr; cbn [app].
  - destruct Hr as (c & r & -> & Hc). cbn. destruct (isdigit c) eqn:E; [apply digits_ok in E; lia|]. reflexivity.
  - inversion Hd; subst. cbn. apply digits_ok in H1. rewrite H1. auto.
Qed.
