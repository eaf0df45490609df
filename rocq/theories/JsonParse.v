From Coq Require Import List ZArith Bool Lia ZifyBool ZifyNat.
From Verif Require Import JsonModel JsonSpec JsonProofs.
Import ListNotations.
Local Open Scope Z_scope.

Ltac eqb_case := match goal with
  | |- context [?a =? ?b] => let E := fresh "E" in destruct (a =? b) eqn:E; [try lia|]
  end.

(* --- texts are accepted --- *)
Definition head_ok (t : list Z) (c : Z) : Prop := exists r, t = c :: r.

Lemma num_head : forall neg ds, ds <> [] -> digits ds -> exists c, head_ok (minus neg ++ ds) c /\ (c = 45 \/ 48 <= c <= 57).
Proof.
  intros neg [|c ds] Hne Hd; [congruence|]. inversion Hd; subst.
  destruct neg; cbn; [exists 45|exists c]; (split; [eexists; reflexivity|lia]).
Qed.
Lemma num_head_app : forall neg ds x, ds <> [] -> digits ds ->
  exists c, head_ok (minus neg ++ ds ++ x) c /\ (c = 45 \/ 48 <= c <= 57).
Proof.
  intros neg [|c ds] x Hne Hd; [congruence|]. inversion Hd; subst.
  destruct neg; cbn; [exists 45|exists c]; (split; [eexists; reflexivity|lia]).
Qed.

Definition plain_head (t : list Z) : Prop := exists c, head_ok t c /\ ~ ws_char c /\ c <> 93 /\ c <> 125.
Ltac lit_head := eexists; split; [eexists; reflexivity|unfold ws_char; cbn [In]; lia].
Lemma head_all :
  (forall d t v, value d t v -> plain_head t) /\
  (forall d t v, array d t v -> head_ok t 91) /\
  (forall d ty t vs, items d ty t vs -> plain_head t) /\
  (forall d ty t v, element d ty t v -> plain_head t) /\
  (forall d t v, object d t v -> head_ok t 123) /\
  (forall d t kvs, members d t kvs -> head_ok t 34) /\
  (forall d t k v, member d t k v -> head_ok t 34).
Proof.
  apply json_ind; intros; try lit_head.
  all: try (eexists; reflexivity).
  all: try match goal with
    | H : ?ds <> [], H1 : digits ?ds |- plain_head (minus ?n ++ ?ds ++ ?x) =>
        destruct (num_head_app n ds x H H1) as (c & Hc & Hd); exists c; split; auto; unfold ws_char; cbn [In]; lia
    | H : ?ds <> [], H1 : digits ?ds |- plain_head (minus ?n ++ ?ds) =>
        destruct (num_head n ds H H1) as (c & Hc & Hd); exists c; split; auto; unfold ws_char; cbn [In]; lia
    | H : head_ok ?t ?c |- plain_head ?t => exists c; split; auto; unfold ws_char; cbn [In]; lia
    end.
  all: try match goal with
    | H : plain_head ?t |- plain_head (?t ++ _) => destruct H as (c & [r ->] & Hc); exists c; split; auto; eexists; reflexivity
    | H : head_ok ?t ?c |- head_ok (?t ++ _) ?c => destruct H as [r ->]; eexists; reflexivity
    end.
Qed.

Lemma vt_num : forall neg ds rest, ds <> [] -> digits ds -> nondigit_head rest ->
  value_type (minus neg ++ ds ++ rest)
    = JOk (match rest with c :: _ => if c =? 46 then TFrac else TInt | [] => TInt end) (minus neg ++ ds ++ rest).
Proof.
  intros neg ds rest Hne Hd Hr.
  destruct (minus_head neg ds rest Hne Hd) as (c & r & -> & Hc & Hs & c' & r' & Hs' & Hc').
  assert (Hcc : c = 45 \/ 48 <= c <= 57).
  { destruct neg; [lia|]. rewrite Hs' in Hs. injection Hs as -> _. lia. }
  unfold value_type. eqb_case. eqb_case. eqb_case. destruct ((c =? 102) || (c =? 116)) eqn:E4; [lia|].
  rewrite Hc. cbn zeta. rewrite Hs. rewrite Hs' at 1. apply digits_ok in Hc'. rewrite Hc'.
  rewrite skip_digits_ok by auto. destruct Hr as (c2 & r2 & -> & _). reflexivity.
Qed.

Lemma value_type_ok : forall d ty t v rest, element d ty t v -> delim rest ->
  (ty = TFrac -> exists n m, v = VFrac n m /\ m <> 1) -> value_type (t ++ rest) = JOk ty (t ++ rest).
Proof.
  intros d ty t v rest He Hr Hk. destruct head_all as (_ & Ha & _ & _ & Ho & _).
  inversion He; subst; try reflexivity.
  - rewrite <- app_assoc. rewrite vt_num; auto using delim_nondigit.
    destruct (delim_head _ Hr) as (c & r & -> & Hc & _). destruct (c =? 46) eqn:E; [lia|]. reflexivity.
  - rewrite <- !app_assoc. cbn [app]. rewrite vt_num; auto. exists 46, (fs ++ rest). split; auto. lia.
  - destruct (Hk eq_refl) as (n & m & Em & Hm). injection Em as _ <-. congruence.
  - destruct (Ha _ _ _ H) as [r ->]. reflexivity.
  - destruct (Ho _ _ _ H) as [r ->]. reflexivity.
Qed.

Lemma app_len : forall A (l : list A) c r, l = c :: r -> (length l = S (length r))%nat.
Proof. intros A l c r ->. reflexivity. Qed.

Lemma p10_ne1 : forall k, (1 <= k)%nat -> (10 ^ Z.of_nat k =? 1) = false.
Proof. intros k Hk. pose proof (p10_le 1 k Hk) as H. unfold p10 in H. change (10 ^ Z.of_nat 1) with 10 in H. lia. Qed.

Lemma items_first : forall d ty t vs, items d ty t vs -> exists t0 v vs' r0, t = t0 ++ r0 /\ vs = v :: vs' /\
  element d ty t0 v /\ forall x, delim (r0 ++ x).
Proof.
  intros d ty t vs Hi. inversion Hi; subst.
  - exists t0, v, [], (w ++ [93]). repeat split; auto. intros. rewrite <- app_assoc. apply delim_ws; auto.
  - exists t0, v, vs0, (w1 ++ 44 :: w2 ++ t'). repeat split; auto. intros. rewrite <- app_assoc. apply delim_ws; auto.
Qed.

Lemma complete_all :
  (forall d t v, value d t v -> forall n rest, (3 * length t + 1 <= n)%nat -> delim rest ->
     parse_value n d (t ++ rest) = JOk v rest) /\
  (forall d t v, array d t v -> forall n r rest, (3 * length t <= n)%nat -> t = 91 :: r ->
     parse_array n d (r ++ rest) = JOk v rest) /\
  (forall d ty t vs, items d ty t vs -> forall n count rest, (3 * length t + 2 <= n)%nat ->
     count + Z.of_nat (length vs) <= 524288 -> 0 <= count ->
     parse_items n ty d (t ++ rest) count = JOk vs rest) /\
  (forall d ty t v, element d ty t v -> forall n rest, (3 * length t + 1 <= n)%nat -> delim rest ->
     parse_elem n ty d (t ++ rest) = JOk v rest) /\
  (forall d t v, object d t v -> forall n r rest, (3 * length t <= n)%nat -> t = 123 :: r ->
     parse_object n d (r ++ rest) = JOk v rest) /\
  (forall d t kvs, members d t kvs -> forall n count rest, (3 * length t + 2 <= n)%nat ->
     count + Z.of_nat (length kvs) <= 524288 -> 0 <= count ->
     parse_members n d (t ++ rest) count = JOk kvs rest) /\
  (forall d t k v, member d t k v -> exists s h w1 w2 tv, key_of s (fst k) h /\ snd k = hash_of h /\ ws w1 /\ ws w2
     /\ t = 34 :: s ++ 34 :: w1 ++ 58 :: w2 ++ tv /\ value d tv v /\
     forall n rest, (3 * length tv + 1 <= n)%nat -> delim rest -> parse_value n d (tv ++ rest) = JOk v rest).
Proof.
  destruct head_all as (Hhv & Hha & Hhi & Hhe & Hho & Hhm & _).
  apply json_ind.
  - intros d n rest Hn Hr. destruct n; [lia|]. reflexivity.
  - intros d n rest Hn Hr. destruct n; [lia|]. reflexivity.
  - intros d n rest Hn Hr. destruct n; [lia|]. reflexivity.
  - intros d s e Hs n rest Hn Hr. destruct n; [lia|]. cbn [app parse_value]. cbn [Z.eqb Pos.eqb].
    rewrite <- app_assoc. cbn [app]. rewrite (parse_string_ok _ _ Hs). reflexivity.
  - intros d neg ds Hne Hd Hf n rest Hn Hr. destruct n; [lia|]. rewrite <- app_assoc.
    destruct (num_head_app neg ds rest Hne Hd) as (c & [r E] & Hc). pose proof E as E'. rewrite E. cbn [parse_value].
    repeat eqb_case. rewrite <- E'. rewrite parse_fraction_whole by auto. reflexivity.
  - intros d neg ds fs Hne Hd Hfn Hfd Hf Hl n rest Hn Hr. destruct n; [lia|]. rewrite <- !app_assoc. cbn [app].
    destruct (num_head_app neg ds (46 :: fs ++ rest) Hne Hd) as (c & [r E] & Hc). pose proof E as E'.
    rewrite E. cbn [parse_value]. repeat eqb_case. rewrite <- E'. rewrite parse_fraction_ok by auto using delim_nondigit.
    cbn [jbind fst snd]. unfold p10. destruct fs as [|f fs]; [congruence|].
    now rewrite (p10_ne1 (length (f :: fs))) by (cbn [length]; lia).
  - intros d t v Ha IH n rest Hn Hr. destruct n; [lia|]. destruct (Hha _ _ _ Ha) as [r ->].
    cbn [app parse_value]. cbn [Z.eqb Pos.eqb]. apply IH; [lia|reflexivity].
  - intros d t v Ho IH n rest Hn Hr. destruct n; [lia|]. destruct (Hho _ _ _ Ho) as [r ->].
    cbn [app parse_value]. cbn [Z.eqb Pos.eqb]. apply IH; [lia|reflexivity].
  - (* array *) intros d w Hw n r rest Hn E. injection E as <-. cbn [length] in Hn. destruct n; [lia|].
    cbn [parse_array]. rewrite <- app_assoc. cbn [app]. rewrite peek_ws; [reflexivity|auto|unfold ws_char; cbn [In]; lia].
  - intros d w ty t vs Hd Hw Hi IH Hk Hl n r rest Hn E. injection E as <-. cbn [length] in Hn. rewrite app_length in Hn.
    destruct n; [lia|]. cbn [parse_array].
    destruct (Hhi _ _ _ _ Hi) as (c & [t' Et] & Hc & H93 & _).
    rewrite <- app_assoc. rewrite Et. cbn [app]. rewrite peek_ws by auto.
    destruct (c =? 93) eqn:E93; [lia|].
    unfold max_depth. destruct (Nat.leb 32 d) eqn:Ed; [apply Nat.leb_le in Ed; lia|].
    change (c :: t' ++ rest) with ((c :: t') ++ rest). rewrite <- Et.
    assert (Hvt : value_type (t ++ rest) = JOk ty (t ++ rest)).
    { destruct (items_first _ _ _ _ Hi) as (t0 & v0 & vs0 & r0 & -> & -> & He0 & Hr0). rewrite <- app_assoc.
      apply value_type_ok with (d := S d) (v := v0); auto.
      intros ->. destruct (Hk eq_refl) as (x & m & r & E & Hm). injection E as -> _. eauto. }
    rewrite Hvt. cbn [jbind]. rewrite IH; [reflexivity|lia|lia|lia].
  - (* items *) intros d ty t v w He IH Hw n count rest Hn Hc Hc0. destruct n; [lia|]. cbn [parse_items length] in *.
    rewrite !app_length in Hn. cbn [length] in Hn.
    unfold max_elements. destruct (count >=? 524288) eqn:Ec; [lia|].
    rewrite <- !app_assoc. cbn [app]. rewrite IH; [|lia|apply delim_ws; auto]. cbn [jbind].
    rewrite peek_ws; [reflexivity|auto|unfold ws_char; cbn [In]; lia].
  - intros d ty t v w1 w2 t' vs He IHe Hw1 Hw2 Hi IHi n count rest Hn Hc Hc0. destruct n; [lia|]. cbn [parse_items length] in *.
    rewrite !app_length in Hn. cbn [length] in Hn. rewrite app_length in Hn.
    unfold max_elements. destruct (count >=? 524288) eqn:Ec; [lia|].
    rewrite <- !app_assoc. cbn [app]. rewrite IHe; [|lia|apply delim_ws; auto]. cbn [jbind].
    rewrite peek_ws; [|auto|unfold ws_char; cbn [In]; lia]. cbn [Z.eqb Pos.eqb].
    destruct (Hhi _ _ _ _ Hi) as (c & [t2 Et] & Hc2 & _). rewrite <- app_assoc. rewrite Et at 1. cbn [app].
    rewrite skip_ws by auto. change (c :: t2 ++ rest) with ((c :: t2) ++ rest). rewrite <- Et.
    rewrite IHi; [reflexivity|lia|lia|lia].
  - (* element *) intros d s e Hs n rest Hn Hr. destruct n; [lia|]. cbn [app parse_elem]. cbn [Z.eqb Pos.eqb].
    rewrite <- app_assoc. cbn [app]. rewrite (parse_string_ok _ _ Hs). reflexivity.
  - intros d n rest Hn Hr. destruct n; [lia|]. reflexivity.
  - intros d n rest Hn Hr. destruct n; [lia|]. reflexivity.
  - intros d neg ds Hne Hd Hf n rest Hn Hr. destruct n; [lia|]. rewrite <- app_assoc.
    destruct (num_head_app neg ds rest Hne Hd) as (c & [r E] & Hc). pose proof E as E'. rewrite E. cbn [parse_elem].
    rewrite <- E'. rewrite parse_int_ok by auto using delim_nondigit. reflexivity.
  - intros d neg ds fs Hne Hd Hfn Hfd Hf Hl n rest Hn Hr. destruct n; [lia|]. rewrite <- !app_assoc. cbn [app].
    destruct (num_head_app neg ds (46 :: fs ++ rest) Hne Hd) as (c & [r E] & Hc). pose proof E as E'.
    rewrite E. cbn [parse_elem]. rewrite <- E'. rewrite parse_fraction_ok by auto using delim_nondigit. reflexivity.
  - intros d neg ds Hne Hd Hf n rest Hn Hr. destruct n; [lia|]. rewrite <- app_assoc.
    destruct (num_head_app neg ds rest Hne Hd) as (c & [r E] & Hc). pose proof E as E'. rewrite E. cbn [parse_elem].
    rewrite <- E'. rewrite parse_fraction_whole by auto. reflexivity.
  - intros d t v Ha IH n rest Hn Hr. destruct n; [lia|]. destruct (Hha _ _ _ Ha) as [r ->].
    cbn [app parse_elem]. cbn [Z.eqb Pos.eqb]. apply IH; [lia|reflexivity].
  - intros d t v Ho IH n rest Hn Hr. destruct n; [lia|]. destruct (Hho _ _ _ Ho) as [r ->].
    cbn [app parse_elem]. cbn [Z.eqb Pos.eqb]. apply IH; [lia|reflexivity].
  - (* object *) intros d w Hw n r rest Hn E. injection E as <-. cbn [length] in Hn. destruct n; [lia|].
    cbn [parse_object]. rewrite <- app_assoc. cbn [app]. rewrite peek_ws; [reflexivity|auto|unfold ws_char; cbn [In]; lia].
  - intros d w t kvs Hd Hw Hi IH Hl n r rest Hn E. injection E as <-. cbn [length] in Hn. rewrite app_length in Hn.
    destruct n; [lia|]. cbn [parse_object].
    destruct (Hhm _ _ _ Hi) as [t' Et]. rewrite <- app_assoc. rewrite Et. cbn [app].
    rewrite peek_ws; [|auto|unfold ws_char; cbn [In]; lia]. cbn [Z.eqb Pos.eqb].
    unfold max_depth. destruct (Nat.leb 32 d) eqn:Ed; [apply Nat.leb_le in Ed; lia|].
    change (34 :: t' ++ rest) with ((34 :: t') ++ rest). rewrite <- Et. rewrite IH; [reflexivity|lia|lia|lia].
  - (* members *) intros d t k v w Hm (s & h & w1 & w2 & tv & Hkey & Hh & Hw1 & Hw2 & -> & Hv & IH) Hw n count rest Hn Hc Hc0.
    destruct n; [lia|]. cbn [length] in Hn, Hc. rewrite ?app_length in Hn; cbn [length] in Hn; rewrite ?app_length in Hn;
      cbn [length] in Hn; rewrite ?app_length in Hn; cbn [length] in Hn; rewrite ?app_length in Hn; cbn [length] in Hn.
    cbn [app parse_members]. unfold max_elements. destruct (count >=? 524288) eqn:Ec; [lia|].
    repeat (rewrite <- app_assoc; cbn [app]). rewrite (parse_key_ok _ _ _ Hkey). cbn [jbind].
    rewrite peek_ws; [|auto|unfold ws_char; cbn [In]; lia]. cbn [Z.eqb Pos.eqb].
    destruct (Hhv _ _ _ Hv) as (c & [t2 Et] & Hc2 & _). rewrite Et at 1. cbn [app].
    rewrite skip_ws by auto. change (c :: t2 ++ w ++ 125 :: rest) with ((c :: t2) ++ w ++ 125 :: rest). rewrite <- Et.
    rewrite IH; [|lia|apply delim_ws; auto]. cbn [jbind].
    rewrite peek_ws; [|auto|unfold ws_char; cbn [In]; lia]. cbn [Z.eqb Pos.eqb].
    destruct k as [k1 k2]. cbn [fst snd] in *. now rewrite Hh.
  - intros d t k v w3 w4 t' kvs Hm (s & h & w1 & w2 & tv & Hkey & Hh & Hw1 & Hw2 & -> & Hv & IH) Hw3 Hw4 Hms IHm n count rest Hn Hc Hc0.
    destruct n; [lia|]. cbn [length] in Hn, Hc. do 6 (rewrite ?app_length in Hn; cbn [length] in Hn).
    cbn [app parse_members]. unfold max_elements. destruct (count >=? 524288) eqn:Ec; [lia|].
    repeat (rewrite <- app_assoc; cbn [app]). rewrite (parse_key_ok _ _ _ Hkey). cbn [jbind].
    rewrite peek_ws; [|auto|unfold ws_char; cbn [In]; lia]. cbn [Z.eqb Pos.eqb].
    destruct (Hhv _ _ _ Hv) as (c & [t2 Et] & Hc2 & _). rewrite Et at 1. cbn [app].
    rewrite skip_ws by auto.
    change (c :: t2 ++ w3 ++ 44 :: w4 ++ t' ++ rest) with ((c :: t2) ++ w3 ++ 44 :: w4 ++ t' ++ rest). rewrite <- Et.
    rewrite IH; [|lia|apply delim_ws; auto]. cbn [jbind].
    rewrite peek_ws; [|auto|unfold ws_char; cbn [In]; lia]. cbn [Z.eqb Pos.eqb].
    destruct (Hhm _ _ _ Hms) as [t3 Et3]. rewrite Et3 at 1. cbn [app].
    rewrite skip_ws; [|auto|unfold ws_char; cbn [In]; lia].
    change (34 :: t3 ++ rest) with ((34 :: t3) ++ rest). rewrite <- Et3.
    rewrite IHm; [|lia|lia|lia]. cbn [jbind]. destruct k as [k1 k2]. cbn [fst snd] in *. now rewrite Hh.
  - (* member *) intros d s k h w1 w2 t v Hk Hw1 Hw2 Hv IH. exists s, h, w1, w2, t. cbn [fst snd]. repeat split; auto.
Qed.

(* --- accepted texts are texts of the value --- *)
Lemma vt_same : forall s ty s', value_type s = JOk ty s' -> s' = s.
Proof.
  intros [|c r] ty s' H; [discriminate|]. unfold value_type in H.
  destruct (c =? 34); [congruence|]. destruct (c =? 91); [congruence|]. destruct (c =? 123); [congruence|].
  destruct ((c =? 102) || (c =? 116)); [congruence|]. cbn zeta in H.
  destruct (if c =? 45 then r else c :: r) as [|c' r']; [discriminate|].
  destruct (isdigit c'); [|discriminate]. destruct (skip_digits (c' :: r')) as [[|x y]|]; try discriminate. congruence.
Qed.
Lemma vt_frac : forall neg ds rest, ds <> [] -> digits ds -> nondigit_head rest ->
  (exists c r, rest = c :: r /\ c <> 46) -> forall s', value_type (minus neg ++ ds ++ rest) <> JOk TFrac s'.
Proof.
  intros neg ds rest Hne Hd Hr (c & r & -> & Hc) s' H. rewrite vt_num in H by auto.
  destruct (c =? 46) eqn:E; [lia|]. discriminate.
Qed.

Lemma sound_all : forall n,
  (forall d s v rest, parse_value n d s = JOk v rest -> exists t, s = t ++ rest /\ value d t v) /\
  (forall d s v rest, parse_array n d s = JOk v rest -> exists t, s = t ++ rest /\ array d (91 :: t) v) /\
  (forall d ty s count vs rest, 0 <= count -> parse_items n ty d s count = JOk vs rest ->
     exists t, s = t ++ rest /\ items d ty t vs /\ count + Z.of_nat (length vs) <= 524288
      /\ (value_type s = JOk ty s -> ty = TFrac -> exists n m r, vs = VFrac n m :: r /\ m <> 1)) /\
  (forall d ty s v rest, parse_elem n ty d s = JOk v rest -> exists t, s = t ++ rest /\ element d ty t v
      /\ (value_type s = JOk ty s -> ty = TFrac -> exists n m, v = VFrac n m /\ m <> 1)) /\
  (forall d s v rest, parse_object n d s = JOk v rest -> exists t, s = t ++ rest /\ object d (123 :: t) v) /\
  (forall d s count kvs rest, 0 <= count -> parse_members n d s count = JOk kvs rest ->
     exists t, s = t ++ rest /\ members d t kvs /\ count + Z.of_nat (length kvs) <= 524288).
Proof.
  induction n as [|n (IHv & IHa & IHi & IHe & IHo & IHm)].
  { repeat split; intros; discriminate. }
  split; [|split; [|split; [|split; [|split]]]].
  - intros d s v rest H. cbn [parse_value] in H. destruct s as [|c r]; [discriminate|].
    destruct (c =? 34) eqn:E1.
    { destruct (parse_string_inv _ _ (le_n _) _ _ _ _ H) as (t & e & Ht & -> & ->). assert (c = 34) as -> by lia.
      exists (34 :: t ++ [34]). split; [cbn; now rewrite <- app_assoc|]. cbn. now constructor. }
    destruct (c =? 91) eqn:E2.
    { destruct (IHa _ _ _ _ H) as (t & -> & Ht). assert (c = 91) as -> by lia. exists (91 :: t). split; [reflexivity|now constructor]. }
    destruct (c =? 123) eqn:E3.
    { destruct (IHo _ _ _ _ H) as (t & -> & Ht). assert (c = 123) as -> by lia. exists (123 :: t). split; [reflexivity|now apply v_object]. }
    destruct (c =? 110) eqn:E4.
    { apply bind_inv in H as (u & s' & He & H). injection H as <- <-. apply expect_inv in He. rewrite He. exists s_null. split; [reflexivity|constructor]. }
    destruct (c =? 116) eqn:E5.
    { apply bind_inv in H as (u & s' & He & H). injection H as <- <-. apply expect_inv in He. rewrite He. exists s_true. split; [reflexivity|constructor]. }
    destruct (c =? 102) eqn:E6.
    { apply bind_inv in H as (u & s' & He & H). injection H as <- <-. apply expect_inv in He. rewrite He. exists s_false. split; [reflexivity|constructor]. }
    apply bind_inv in H as ([x m] & s' & Hf & H). cbn [fst snd] in H. injection H as <- <-.
    destruct (parse_fraction_inv _ _ _ _ Hf) as (neg & ds & Hne & Hd & Hr & [(-> & -> & Hfit & -> & _)|(fs & Hfn & Hfd & Hfit & Hl & -> & -> & ->)]).
    + exists (minus neg ++ ds). split; [now rewrite <- app_assoc|]. cbn [Z.eqb Pos.eqb]. now constructor.
    + exists (minus neg ++ ds ++ 46 :: fs). split; [now rewrite <- !app_assoc|].
      unfold p10. destruct fs as [|f fs]; [congruence|]. rewrite (p10_ne1 (length (f :: fs))) by (cbn [length]; lia). now constructor.
  - intros d s v rest H. cbn [parse_array] in H. apply peek_inv in H as (w & c & r & Hw & Hc & -> & H).
    destruct (c =? 93) eqn:E1.
    { injection H as <- <-. assert (c = 93) as -> by lia. exists (w ++ [93]). split; [now rewrite <- app_assoc|now constructor]. }
    unfold max_depth in H. destruct (Nat.leb 32 d) eqn:Ed; [discriminate|]. apply Nat.leb_gt in Ed.
    apply bind_inv in H as (ty & s' & Hvt & H). pose proof (vt_same _ _ _ Hvt) as ->.
    apply bind_inv in H as (vs & s2 & Hi & H). injection H as <- <-.
    destruct (IHi _ _ _ _ _ _ (Z.le_refl 0) Hi) as (t & Et & Ht & Hl & Hk).
    exists (w ++ t). split; [rewrite <- app_assoc; congruence|]. constructor; auto.
  - intros d ty s count vs rest H0 H. cbn [parse_items] in H. unfold max_elements in H.
    destruct (count >=? 524288) eqn:Ec; [discriminate|].
    apply bind_inv in H as (v & s1 & He & H). destruct (IHe _ _ _ _ _ He) as (t & -> & Ht & Hk).
    apply peek_inv in H as (w & c & r & Hw & Hc & -> & H).
    destruct (c =? 93) eqn:E1.
    { injection H as <- <-. assert (c = 93) as -> by lia. exists (t ++ w ++ [93]). cbn [length].
      split; [now rewrite <- !app_assoc|]. split; [now constructor|]. split; [lia|].
      intros Hv Hf. destruct (Hk Hv Hf) as (x & m & -> & Hm). eauto. }
    destruct (c =? 44) eqn:E2; [|discriminate].
    destruct (skip_spaces r) as [s2|] eqn:Es; [|discriminate].
    destruct (skip_inv _ _ Es) as (w2 & _ & _ & Hw2 & -> & _).
    apply bind_inv in H as (vs' & s3 & Hi & H). injection H as <- <-.
    assert (H1 : 0 <= count + 1) by lia.
    destruct (IHi _ _ _ _ _ _ H1 Hi) as (t' & -> & Ht' & Hl & _).
    assert (c = 44) as -> by lia. exists (t ++ w ++ 44 :: w2 ++ t'). cbn [length].
    split; [repeat (rewrite <- app_assoc; cbn [app]); reflexivity|]. split; [now constructor|]. split; [lia|].
    intros Hv Hf. destruct (Hk Hv Hf) as (x & m & -> & Hm). eauto.
  - intros d ty s v rest H. cbn [parse_elem] in H. destruct s as [|c r]; [discriminate|]. destruct ty.
    + destruct (c =? 34) eqn:E1; [|discriminate].
      destruct (parse_string_inv _ _ (le_n _) _ _ _ _ H) as (t & e & Ht & -> & ->). assert (c = 34) as -> by lia.
      exists (34 :: t ++ [34]). split; [cbn; now rewrite <- app_assoc|]. split; [cbn; now constructor|discriminate].
    + destruct (c =? 91) eqn:E1; [|discriminate]. destruct (IHa _ _ _ _ H) as (t & -> & Ht). assert (c = 91) as -> by lia.
      exists (91 :: t). split; [reflexivity|]. split; [now constructor|discriminate].
    + destruct (c =? 123) eqn:E1; [|discriminate]. destruct (IHo _ _ _ _ H) as (t & -> & Ht). assert (c = 123) as -> by lia.
      exists (123 :: t). split; [reflexivity|]. split; [now constructor|discriminate].
    + destruct (c =? 116) eqn:E5.
      { apply bind_inv in H as (u & s' & He & H). injection H as <- <-. apply expect_inv in He. rewrite He. exists s_true.
        split; [reflexivity|split; [constructor|discriminate]]. }
      destruct (c =? 102) eqn:E6; [|discriminate].
      apply bind_inv in H as (u & s' & He & H). injection H as <- <-. apply expect_inv in He. rewrite He. exists s_false.
      split; [reflexivity|split; [constructor|discriminate]].
    + apply bind_inv in H as ([x m] & s' & Hf & H). cbn [fst snd] in H. injection H as <- <-.
      destruct (parse_fraction_inv _ _ _ _ Hf) as (neg & ds & Hne & Hd & Hr & [(-> & -> & Hfit & -> & Hh)|(fs & Hfn & Hfd & Hfit & Hl & -> & -> & ->)]).
      * exists (minus neg ++ ds). split; [now rewrite <- app_assoc|]. split; [now constructor|].
        intros Hv _. exfalso. exact (vt_frac _ _ _ Hne Hd Hr Hh _ Hv).
      * exists (minus neg ++ ds ++ 46 :: fs). split; [now rewrite <- !app_assoc|]. split; [now constructor|].
        intros _ _. eexists _, _. split; [reflexivity|]. unfold p10. destruct fs as [|f fs]; [congruence|].
        pose proof (p10_ne1 (length (f :: fs)) ltac:(cbn [length]; lia)). lia.
    + apply bind_inv in H as ([x neg] & s' & Hf & H). cbn [fst snd] in H. injection H as <- <-.
      destruct (parse_int_inv _ _ _ _ Hf) as (ds & Hne & Hd & Hfit & Hr & -> & ->).
      exists (minus neg ++ ds). split; [now rewrite <- app_assoc|]. split; [now constructor|discriminate].
  - intros d s v rest H. cbn [parse_object] in H. apply peek_inv in H as (w & c & r & Hw & Hc & -> & H).
    destruct (c =? 125) eqn:E1.
    { injection H as <- <-. assert (c = 125) as -> by lia. exists (w ++ [125]). split; [now rewrite <- app_assoc|now constructor]. }
    unfold max_depth in H. destruct (Nat.leb 32 d) eqn:Ed; [discriminate|]. apply Nat.leb_gt in Ed.
    apply bind_inv in H as (kvs & s2 & Hi & H). injection H as <- <-.
    destruct (IHm _ _ _ _ _ (Z.le_refl 0) Hi) as (t & Et & Ht & Hl).
    exists (w ++ t). split; [rewrite <- app_assoc; congruence|]. constructor; auto.
  - intros d s count kvs rest H0 H. cbn [parse_members] in H. unfold max_elements in H.
    destruct (count >=? 524288) eqn:Ec; [discriminate|]. destruct s as [|c r]; [discriminate|].
    destruct (c =? 34) eqn:E1; [|discriminate]. assert (c = 34) as -> by lia.
    apply bind_inv in H as (k & s1 & Hk & H).
    destruct (parse_key_inv _ _ (le_n _) _ _ _ _ Hk) as (ks & kk & kh & Hks & -> & ->).
    apply peek_inv in H as (w1 & c1 & r1 & Hw1 & _ & -> & H). destruct (c1 =? 58) eqn:E2; [|discriminate].
    assert (c1 = 58) as -> by lia. destruct (skip_spaces r1) as [s2|] eqn:Es; [|discriminate].
    destruct (skip_inv _ _ Es) as (w2 & _ & _ & Hw2 & -> & _).
    apply bind_inv in H as (v & s3 & Hv & H). destruct (IHv _ _ _ _ Hv) as (t & -> & Ht).
    apply peek_inv in H as (w3 & c3 & r3 & Hw3 & _ & -> & H).
    assert (Hmem : member d (34 :: ks ++ 34 :: w1 ++ 58 :: w2 ++ t) (kk, hash_of kh) v) by (constructor; auto).
    destruct (c3 =? 125) eqn:E3.
    { injection H as <- <-. assert (c3 = 125) as -> by lia.
      exists ((34 :: ks ++ 34 :: w1 ++ 58 :: w2 ++ t) ++ w3 ++ [125]). cbn [length].
      split; [cbn [app]; repeat (rewrite <- app_assoc; cbn [app]); reflexivity|]. split; [|lia]. apply m_last; auto. }
    destruct (c3 =? 44) eqn:E4; [|discriminate]. assert (c3 = 44) as -> by lia.
    destruct (skip_spaces r3) as [s4|] eqn:Es4; [|discriminate].
    destruct (skip_inv _ _ Es4) as (w4 & _ & _ & Hw4 & -> & _).
    apply bind_inv in H as (kvs' & s5 & Hm & H). injection H as <- <-.
    assert (H1 : 0 <= count + 1) by lia.
    destruct (IHm _ _ _ _ _ H1 Hm) as (t' & -> & Ht' & Hl).
    exists ((34 :: ks ++ 34 :: w1 ++ 58 :: w2 ++ t) ++ w3 ++ 44 :: w4 ++ t'). cbn [length].
    split; [cbn [app]; repeat (rewrite <- app_assoc; cbn [app]); reflexivity|]. split; [|lia]. apply m_more; auto.
Qed.

(* --- no input makes the parser read beyond the NUL, overflow or run out of calls --- *)
Definition term (s : list Z) : Prop := exists a, s = a ++ [0].
Lemma term_cons : forall c r, term (c :: r) -> c <> 0 -> term r.
Proof. intros c r [[|x a] E] H; injection E as -> ->; [congruence|]. now exists a. Qed.
Lemma term_ne : ~ term [].
Proof. intros [[|x a] E]; discriminate. Qed.
(* a result is good for the text *)
Definition good {A} (s : list Z) (r : jres A) : Prop :=
  match r with
  | JOk _ rest => term rest /\ (length rest < length s)%nat
  | JBad => True
  | _ => False
  end.
Lemma good_le : forall A s s' (r : jres A), good s r -> (length s <= length s')%nat -> good s' r.
Proof. intros A s s' [a rest| | |] H Hl; cbn in *; auto. intuition lia. Qed.
Lemma good_bind : forall A B s (r : jres A) (f : A -> list Z -> jres B), good s r ->
  (forall a rest, term rest -> (length rest < length s)%nat -> good s (f a rest)) -> good s (jbind r f).
Proof. intros A B s [a rest| | |] f H Hf; cbn in *; auto. apply Hf; tauto. Qed.

Lemma skip_term : forall s, term s -> exists c r, skip_spaces s = Some (c :: r) /\ term (c :: r)
  /\ (length (c :: r) <= length s)%nat /\ ~ ws_char c.
Proof.
  induction s as [|c r IH]; intros H; [now apply term_ne in H|]. cbn [skip_spaces].
  destruct (negb (c =? 0) && isspace c) eqn:E.
  - destruct IH as (c' & r' & -> & Ht & Hl & Hc); [apply term_cons in H; auto; lia|]. exists c', r'. repeat split; auto.
    cbn [length] in *. lia.
  - exists c, r. repeat split; auto. intros Hc. apply space_cond in Hc. congruence.
Qed.
Lemma good_peek : forall A s0 s (f : Z -> list Z -> jres A), term s ->
  (forall c r, term (c :: r) -> (length (c :: r) <= length s)%nat -> good s0 (f c r)) -> good s0 (skip_peek s f).
Proof.
  intros A s0 s f Ht Hf. unfold skip_peek. destruct (skip_term s Ht) as (c & r & -> & Ht' & Hl & _). auto.
Qed.

Lemma good_string : forall k s, (length s <= k)%nat -> forall e raw, term s -> good s (parse_string s e raw).
Proof.
  induction k as [|k IH]; intros s Hk e raw Ht; destruct s as [|c r]; cbn [length] in Hk; try (now apply term_ne in Ht); [lia|].
  cbn [parse_string]. destruct (c =? 0) eqn:E0; [exact Logic.I|]. apply term_cons in Ht; [|lia].
  destruct (c =? 92).
  - destruct r as [|c' r']; [now apply term_ne in Ht|]. destruct (c' =? 0) eqn:E1; [exact Logic.I|].
    apply term_cons in Ht; [|lia]. cbn [length] in Hk. apply good_le with (s := r'); [apply IH; auto; lia|cbn [length]; lia].
  - destruct (c =? 34); [split; auto; cbn [length]; lia|]. apply good_le with (s := r); [apply IH; auto; lia|cbn [length]; lia].
Qed.
Lemma good_key : forall k s, (length s <= k)%nat -> forall h raw, term s -> good s (parse_key s h raw).
Proof.
  induction k as [|k IH]; intros s Hk h raw Ht; destruct s as [|c r]; cbn [length] in Hk; try (now apply term_ne in Ht); [lia|].
  cbn [parse_key]. cbn zeta. destruct (c =? 0) eqn:E0; [exact Logic.I|]. apply term_cons in Ht; [|lia].
  destruct (lower c =? 92).
  - destruct r as [|c' r']; [now apply term_ne in Ht|]. destruct (c' =? 0) eqn:E1; [exact Logic.I|].
    apply term_cons in Ht; [|lia]. cbn [length] in Hk. apply good_le with (s := r'); [apply IH; auto; lia|cbn [length]; lia].
  - destruct (lower c =? 34); [split; auto; cbn [length]; lia|]. apply good_le with (s := r); [apply IH; auto; lia|cbn [length]; lia].
Qed.
Lemma good_int_loop : forall s v, term s -> (exists c r, s = c :: r /\ 48 <= c <= 57) -> 0 <= v -> good s (int_loop s v).
Proof.
  induction s as [|c r IH]; intros v Ht (c0 & r0 & E0 & Hc) Hv; [discriminate|]. injection E0 as <- <-.
  apply term_cons in Ht; [|lia]. cbn [int_loop]. rewrite lm10. destruct (v >? 922337203685477579) eqn:E; [exact Logic.I|].
  cbn zeta. destruct (v * 10 + (c - 48) >? llong_max) eqn:E2; [unfold llong_max in E2; lia|].
  destruct r as [|c' r']; [now apply term_ne in Ht|]. destruct (isdigit c') eqn:E3.
  - apply digits_ok in E3. apply good_le with (s := c' :: r'); [apply IH; eauto; lia|cbn [length]; lia].
  - split; auto. 
Qed.
Lemma good_frac_loop : forall s v d, term s -> (exists c r, s = c :: r /\ 48 <= c <= 57) -> 0 <= v -> good s (frac_loop s v d).
Proof.
  induction s as [|c r IH]; intros v d Ht (c0 & r0 & E0 & Hc) Hv; [discriminate|]. injection E0 as <- <-.
  apply term_cons in Ht; [|lia]. cbn [frac_loop]. rewrite lm10.
  destruct ((v >? 922337203685477579) || (d >? ullong_max / 10)) eqn:E; [exact Logic.I|].
  cbn zeta. destruct (v * 10 + (c - 48) >? llong_max) eqn:E2; [unfold llong_max in E2; lia|].
  destruct r as [|c' r']; [now apply term_ne in Ht|]. destruct (isdigit c') eqn:E3.
  - apply digits_ok in E3. apply good_le with (s := c' :: r'); [apply IH; eauto; lia|cbn [length]; lia].
  - split; auto.
Qed.
Lemma good_int : forall s, term s -> good s (parse_int s).
Proof.
  intros [|c r] Ht; [now apply term_ne in Ht|]. unfold parse_int. cbn zeta.
  assert (Ht' : term (if c =? 45 then r else c :: r)).
  { destruct (c =? 45) eqn:E; auto. apply term_cons in Ht; auto. lia. }
  assert (Hl : (length (if (c =? 45)%Z then r else c :: r) <= length (c :: r))%nat).
  { destruct (c =? 45); cbn [length]; lia. }
  destruct (if c =? 45 then r else c :: r) as [|c' r']; [now apply term_ne in Ht'|].
  destruct (isdigit c') eqn:E; [|exact Logic.I]. apply digits_ok in E.
  pose proof (good_int_loop (c' :: r') 0 Ht' ltac:(eauto) ltac:(lia)) as Hg.
  destruct (int_loop (c' :: r') 0) as [a rest| | |]; cbn [good] in *; auto. split; [tauto|lia].
Qed.
Lemma good_fraction : forall s, term s -> good s (parse_fraction s).
Proof.
  intros s Ht. unfold parse_fraction. pose proof (good_int s Ht) as Hg.
  destruct (parse_int s) as [[v neg] s1| | |] eqn:Ei; cbn [good] in *; auto. destruct Hg as [Ht1 Hl1].
  destruct (parse_int_inv _ _ _ _ Ei) as (ds & _ & Hd & _ & _ & _ & ->). cbn zeta.
  destruct s1 as [|c r]; [now apply term_ne in Ht1|]. destruct (c =? 46) eqn:E; [|split; auto].
  apply term_cons in Ht1; [|lia]. destruct r as [|c' r']; [now apply term_ne in Ht1|].
  destruct (isdigit c') eqn:E'; [|exact Logic.I]. apply digits_ok in E'.
  assert (Hg : 0 <= decimal ds) by (apply (dfold_ge ds 0); auto; lia).
  pose proof (good_frac_loop (c' :: r') (decimal ds) 1 Ht1 ltac:(eauto) Hg) as Hgl.
  destruct (frac_loop (c' :: r') (decimal ds) 1) as [[a b] rest| | |]; cbn [good length] in *; auto.
  split; [tauto|lia].
Qed.
Lemma good_expect : forall l lit s, Forall (fun c => c <> 0) (l :: lit) -> term s -> good s (expect (l :: lit) s).
Proof.
  intros l lit. revert l. induction lit as [|l' lit IH]; intros l s Hl Ht; (destruct s as [|c r]; [now apply term_ne in Ht|]);
    inversion Hl; subst; cbn [expect]; destruct (c =? l) eqn:E; try exact Logic.I.
  - apply term_cons in Ht; [|lia]. split; auto.
  - apply term_cons in Ht; [|lia]. apply good_le with (s := r); [now apply IH|cbn [length]; lia].
Qed.
Lemma good_vt : forall s, term s -> value_type s = JBad \/ exists ty, value_type s = JOk ty s.
Proof.
  intros [|c r] Ht; [now apply term_ne in Ht|]. unfold value_type.
  destruct (c =? 34); [eauto|]. destruct (c =? 91); [eauto|]. destruct (c =? 123); [eauto|].
  destruct ((c =? 102) || (c =? 116)); [eauto|]. cbn zeta.
  assert (Ht' : term (if c =? 45 then r else c :: r)).
  { destruct (c =? 45) eqn:E; auto. apply term_cons in Ht; auto. lia. }
  destruct (if c =? 45 then r else c :: r) as [|c' r']; [now apply term_ne in Ht'|].
  destruct (isdigit c') eqn:E; [|auto].
  assert (Hs : forall s, term s -> exists x y, skip_digits s = Some (x :: y)).
  { induction s as [|a s IH]; intros Hs; [now apply term_ne in Hs|]. cbn. destruct (isdigit a) eqn:Ea; [|eauto].
    apply digits_ok in Ea. apply IH. apply term_cons in Hs; auto. lia. }
  destruct (Hs _ Ht') as (x & y & ->). eauto.
Qed.

Ltac lits := repeat constructor; lia.
Lemma good_all : forall n,
  (forall d s, (3 * length s + 1 <= n)%nat -> term s -> good s (parse_value n d s)) /\
  (forall d s, (3 * length s + 3 <= n)%nat -> term s -> good s (parse_array n d s)) /\
  (forall d ty s count, (3 * length s + 2 <= n)%nat -> term s -> good s (parse_items n ty d s count)) /\
  (forall d ty s, (3 * length s + 1 <= n)%nat -> term s -> good s (parse_elem n ty d s)) /\
  (forall d s, (3 * length s + 3 <= n)%nat -> term s -> good s (parse_object n d s)) /\
  (forall d s count, (3 * length s + 2 <= n)%nat -> term s -> good s (parse_members n d s count)).
Proof.
  induction n as [|n (IHv & IHa & IHi & IHe & IHo & IHm)].
  { repeat split; intros; lia. }
  split; [|split; [|split; [|split; [|split]]]].
  - intros d s Hn Ht. cbn [parse_value]. destruct s as [|c r]; [now apply term_ne in Ht|]. cbn [length] in Hn.
    assert (Htr : c <> 0 -> term r) by (intros; eapply term_cons; eauto).
    destruct (c =? 34) eqn:E1; [apply good_le with (s := r); [eapply good_string; [reflexivity|apply Htr; lia]|cbn [length]; lia]|].
    destruct (c =? 91) eqn:E2; [apply good_le with (s := r); [apply IHa; [lia|apply Htr; lia]|cbn [length]; lia]|].
    destruct (c =? 123) eqn:E3; [apply good_le with (s := r); [apply IHo; [lia|apply Htr; lia]|cbn [length]; lia]|].
    destruct (c =? 110); [apply good_bind; [apply good_expect; [lits|auto]|intros; split; auto]|].
    destruct (c =? 116); [apply good_bind; [apply good_expect; [lits|auto]|intros; split; auto]|].
    destruct (c =? 102); [apply good_bind; [apply good_expect; [lits|auto]|intros; split; auto]|].
    apply good_bind; [apply good_fraction; auto|intros; split; auto].
  - intros d s Hn Ht. cbn [parse_array]. apply good_peek; [auto|]. intros c r Htc Hl. cbn [length] in Hl.
    destruct (c =? 93) eqn:E1; [split; [apply term_cons in Htc; auto; lia|lia]|].
    destruct (Nat.leb max_depth d); [exact Logic.I|].
    destruct (good_vt _ Htc) as [->|[ty ->]]; [exact Logic.I|]. cbn [jbind].
    apply good_bind; [apply good_le with (s := c :: r); [apply IHi; [cbn [length]; lia|auto]|cbn [length]; lia]|].
    intros; split; auto.
  - intros d ty s count Hn Ht. cbn [parse_items]. destruct (count >=? max_elements); [exact Logic.I|].
    apply good_bind; [apply IHe; [lia|auto]|]. intros v s1 Ht1 Hl1.
    apply good_peek; [auto|]. intros c r Htc Hl. cbn [length] in Hl.
    destruct (c =? 93) eqn:E1; [split; [apply term_cons in Htc; auto; lia|lia]|].
    destruct (c =? 44) eqn:E2; [|exact Logic.I]. apply term_cons in Htc; [|lia].
    destruct (skip_term r Htc) as (c2 & r2 & -> & Ht2 & Hl2 & _).
    apply good_bind; [apply good_le with (s := c2 :: r2); [apply IHi; [lia|auto]|lia]|]. intros; split; auto.
  - intros d ty s Hn Ht. cbn [parse_elem]. destruct s as [|c r]; [now apply term_ne in Ht|]. cbn [length] in Hn.
    assert (Htr : c <> 0 -> term r) by (intros; eapply term_cons; eauto). destruct ty.
    + destruct (c =? 34) eqn:E1; [apply good_le with (s := r); [eapply good_string; [reflexivity|apply Htr; lia]|cbn [length]; lia]|exact Logic.I].
    + destruct (c =? 91) eqn:E2; [apply good_le with (s := r); [apply IHa; [lia|apply Htr; lia]|cbn [length]; lia]|exact Logic.I].
    + destruct (c =? 123) eqn:E3; [apply good_le with (s := r); [apply IHo; [lia|apply Htr; lia]|cbn [length]; lia]|exact Logic.I].
    + destruct (c =? 116); [apply good_bind; [apply good_expect; [lits|auto]|intros; split; auto]|].
      destruct (c =? 102); [apply good_bind; [apply good_expect; [lits|auto]|intros; split; auto]|exact Logic.I].
    + apply good_bind; [apply good_fraction; auto|intros; split; auto].
    + apply good_bind; [apply good_int; auto|intros; split; auto].
  - intros d s Hn Ht. cbn [parse_object]. apply good_peek; [auto|]. intros c r Htc Hl. cbn [length] in Hl.
    destruct (c =? 125) eqn:E1; [split; [apply term_cons in Htc; auto; lia|lia]|].
    destruct (Nat.leb max_depth d); [exact Logic.I|].
    apply good_bind; [apply good_le with (s := c :: r); [apply IHm; [cbn [length]; lia|auto]|cbn [length]; lia]|].
    intros; split; auto.
  - intros d s count Hn Ht. cbn [parse_members]. destruct (count >=? max_elements); [exact Logic.I|].
    destruct s as [|c r]; [now apply term_ne in Ht|]. destruct (c =? 34) eqn:E1; [|exact Logic.I].
    apply term_cons in Ht; [|lia]. cbn [length] in Hn.
    apply good_bind; [apply good_le with (s := r); [eapply good_key; [reflexivity|auto]|cbn [length]; lia]|].
    intros k s1 Ht1 Hl1. apply good_peek; [auto|]. intros c1 r1 Htc1 Hl1'. cbn [length] in Hl1', Hl1.
    destruct (c1 =? 58) eqn:E2; [|exact Logic.I]. apply term_cons in Htc1; [|lia].
    destruct (skip_term r1 Htc1) as (c2 & r2 & -> & Ht2 & Hl2 & _). cbn [length] in Hl2.
    apply good_bind; [apply good_le with (s := c2 :: r2); [apply IHv; [cbn [length]; lia|auto]|cbn [length]; lia]|].
    intros v s3 Ht3 Hl3. cbn [length] in Hl3. apply good_peek; [auto|]. intros c3 r3 Htc3 Hl3'. cbn [length] in Hl3'.
    destruct (c3 =? 125) eqn:E3; [split; [apply term_cons in Htc3; auto; lia|cbn [length]; lia]|].
    destruct (c3 =? 44) eqn:E4; [|exact Logic.I]. apply term_cons in Htc3; [|lia].
    destruct (skip_term r3 Htc3) as (c4 & r4 & -> & Ht4 & Hl4 & _). cbn [length] in Hl4.
    apply good_bind; [apply good_le with (s := c4 :: r4); [apply IHm; [cbn [length]; lia|auto]|cbn [length]; lia]|].
    intros; split; auto.
Qed.
