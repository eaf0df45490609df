(* The parser of file names. *)
From Coq Require Import String Ascii ZArith List Bool Lia ZifyBool.
From Verif Require Import Bytes M3u8Model M3u8Spec M3u8Proofs UriModel UriSpec.
Import ListNotations.
Open Scope Z_scope.

Lemma eqs_true a b : eqs a b = true -> a = b.
Proof. unfold eqs. destruct (list_eq_dec _ _ _); [auto | discriminate]. Qed.
Lemma eqs_refl a : eqs a a = true.
Proof. unfold eqs. destruct (list_eq_dec _ _ _); [reflexivity | congruence]. Qed.

(* ----- numbers *)
Definition val (acc : Z) (ds : list Z) : Z := fold_left (fun a c => 10 * a + (c - 48)) ds acc.

Definition stops (l : list Z) : Prop := match l with [] => True | c :: _ => digit c = false end.

Lemma u32_step a c : u32 (u32 a * 10 + c - 48) = u32 (10 * a + (c - 48)).
Proof.
  unfold u32. replace (a mod 2 ^ 32 * 10 + c - 48) with ((10 * (a mod 2 ^ 32)) + (c - 48)) by ring.
  rewrite <- (Zplus_mod_idemp_l (10 * (a mod 2 ^ 32))), Zmult_mod_idemp_r, Zplus_mod_idemp_l. reflexivity.
Qed.

Lemma uint_digits ds : forall acc rest, Forall (fun c => digit c = true) ds -> stops rest ->
  parse_uint32 (u32 acc) (ds ++ rest) = (u32 (val acc ds), rest).
Proof.
  induction ds as [|c ds IH]; intros acc rest D S.
  - cbn [app val fold_left]. destruct rest as [|c r]; [reflexivity|]. cbn [stops] in S. cbn [parse_uint32].
    unfold digit in S. rewrite S. reflexivity.
  - inversion D; subst. cbn [app parse_uint32]. unfold digit in H1. rewrite H1. rewrite u32_step. apply IH; assumption.
Qed.

Lemma uint_split l : forall acc, exists ds rest, l = ds ++ rest /\ Forall (fun c => digit c = true) ds /\ stops rest
  /\ parse_uint32 (u32 acc) l = (u32 (val acc ds), rest).
Proof.
  induction l as [|c l IH]; intros acc.
  - exists [], []. repeat split. apply Forall_nil.
  - destruct (digit c) eqn:E.
    + destruct (IH (10 * acc + (c - 48))) as (ds & rest & H1 & H2 & H3 & H4).
      exists (c :: ds), rest. split; [cbn; congruence|]. split; [apply Forall_cons; assumption|]. split; [assumption|].
      cbn [parse_uint32]. unfold digit in E. rewrite E, u32_step. exact H4.
    + exists [], (c :: l). split; [reflexivity|]. split; [apply Forall_nil|]. split; [exact E|].
      cbn [parse_uint32]. unfold digit in E. rewrite E. reflexivity.
Qed.

Lemma parse_index_ok ds i rest : says_index ds i -> stops rest -> parse_index (45 :: ds ++ rest) = Ok (i, rest).
Proof.
  intros (D & V & I) S. unfold parse_index. cbn [expect]. rewrite Z.eqb_refl. cbn [bind].
  change 0 with (u32 0) at 1. rewrite uint_digits by assumption. unfold val. rewrite V.
  destruct (i + 1 <=? 0) eqn:E; [lia|]. f_equal. f_equal. lia.
Qed.

Lemma parse_index_inv l i rest : parse_index l = Ok (i, rest) ->
  exists ds, l = 45 :: ds ++ rest /\ says_index ds i /\ stops rest.
Proof.
  unfold parse_index. destruct l as [|c l]; [discriminate|]. cbn [expect]. destruct (c =? 45) eqn:E; [|discriminate]. cbn [bind].
  apply Z.eqb_eq in E. subst c.
  destruct (uint_split l 0) as (ds & r & H1 & H2 & H3 & H4). change (u32 0) with 0 in H4. rewrite H4.
  destruct (u32 (val 0 ds) <=? 0) eqn:P; [discriminate|]. intros H. injection H as <- <-.
  exists ds. split; [congruence|]. split; [|assumption]. split; [assumption|]. unfold val in *. split; lia.
Qed.

Lemma parse_index_over l : parse_index l <> Over.
Proof.
  unfold parse_index. destruct l as [|c l]; cbn [expect bind]; [discriminate|]. destruct (c =? 45); cbn [bind]; [|discriminate].
  destruct (parse_uint32 0 l) as [v r]. destruct (v <=? 0); discriminate.
Qed.

(* ----- ids *)
Definition dashed (l : list Z) : Prop := l = [] \/ exists r, l = 45 :: r.

Lemma extract_ok id : forall rest, ~ In 45 id -> dashed rest -> extract (id ++ rest) = (id, rest).
Proof.
  induction id as [|c id IH]; intros rest N D.
  - cbn [app]. destruct D as [->|[r ->]]; reflexivity.
  - cbn [app extract]. destruct (c =? 45) eqn:E; [exfalso; apply N; left; lia|]. rewrite IH; [reflexivity | intros H; apply N; right; exact H | exact D].
Qed.
Lemma extract_inv l id rest : extract l = (id, rest) -> l = id ++ rest /\ ~ In 45 id /\ dashed rest.
Proof.
  revert id rest. induction l as [|c l IH]; intros id rest H.
  - injection H as <- <-. repeat split; [intros [] | left; reflexivity].
  - cbn [extract] in H. destruct (c =? 45) eqn:E.
    + injection H as <- <-. assert (c = 45) by lia. subst. repeat split; [intros [] | right; eexists; reflexivity].
    + destruct (extract l) as [a b] eqn:X. injection H as <- <-. destruct (IH _ _ eq_refl) as (-> & N & D).
      repeat split; [|assumption]. intros [H|H]; [lia | exact (N H)].
Qed.

(* ----- media types *)
Definition letter (can c : Z) : Prop :=
  c = 118 /\ Z.land can 1 <> 0 \/ c = 97 /\ Z.land can 2 <> 0 \/ c = 116 /\ Z.land can 4 <> 0.
Definition flag_of (c : Z) : Z := if c =? 118 then 1 else if c =? 97 then 2 else 4.

Lemma letter_flag can c : letter can c -> type_flag c = Some (flag_of c) /\ c <> 45 /\ Z.land can (flag_of c) <> 0.
Proof. intros [[-> H]|[[-> H]|[-> H]]]; (split; [reflexivity | split; [lia | exact H]]). Qed.
Lemma flag_letter can c f : type_flag c = Some f -> Z.land can f <> 0 -> letter can c /\ f = flag_of c.
Proof.
  unfold type_flag, letter, flag_of. destruct (c =? 118) eqn:E1; [intros H; injection H as <-; intros; split; [left; split; [lia|assumption] | reflexivity]|].
  destruct (c =? 97) eqn:E2; [intros H; injection H as <-; intros; split; [right; left; split; [lia|assumption] | reflexivity]|].
  destruct (c =? 116) eqn:E3; [intros H; injection H as <-; intros; split; [right; right; split; [lia|assumption] | reflexivity]|]. discriminate.
Qed.

Lemma flags_apart can a b : letter can a -> letter can b -> (Z.land (flag_of a) (flag_of b) = 0 <-> a <> b).
Proof.
  intros [[-> _]|[[-> _]|[-> _]]] [[-> _]|[[-> _]|[-> _]]];
  (split; [intros H; vm_compute in H; congruence | intros H; first [reflexivity | congruence]]).
Qed.

Lemma mask_cons can c l : letter can c -> letters_mask (c :: l) = Z.lor (flag_of c) (letters_mask l).
Proof.
  unfold letters_mask, flag_of. intros [[-> _]|[[-> _]|[-> _]]]; cbn [existsb];
  destruct (existsb (Z.eqb 118) l), (existsb (Z.eqb 97) l), (existsb (Z.eqb 116) l); reflexivity.
Qed.

Lemma types_iff can l : forall mask count m c,
  types can mask count l = Ok (m, c) <->
  l <> [] /\ Forall (letter can) l /\ NoDup l /\ Forall (fun x => Z.land mask (flag_of x) = 0) l
  /\ m = Z.lor mask (letters_mask l) /\ c = count + zlen l.
Proof.
  induction l as [|x l IH]; intros mask count m c.
  - cbn [types]. split; [discriminate | intros (H & _); congruence].
  - cbn [types]. split.
    + destruct (x =? 45); [discriminate|]. destruct (type_flag x) as [f|] eqn:F; [|discriminate].
      destruct (Z.land can f =? 0) eqn:A; [discriminate|]. destruct (Z.land mask f =? 0) eqn:B; [|discriminate]. cbn [negb].
      destruct (flag_letter can x f F) as [L ->]; [lia|].
      destruct l as [|y l].
      * intros H. injection H as <- <-. split; [discriminate|]. split; [apply Forall_cons; [exact L | apply Forall_nil]|].
        split; [apply NoDup_cons; [intros [] | apply NoDup_nil]|]. split; [apply Forall_cons; [lia | apply Forall_nil]|].
        split; [rewrite (mask_cons can) by exact L; change (letters_mask []) with 0; rewrite Z.lor_0_r; reflexivity | unfold zlen; cbn [length]; lia].
      * intros H. apply IH in H. destruct H as (_ & H1 & H2 & H3 & H4 & H5).
        split; [discriminate|]. split; [apply Forall_cons; assumption|].
        assert (Forall (fun z => Z.land mask (flag_of z) = 0 /\ Z.land (flag_of x) (flag_of z) = 0) (y :: l)) as H6.
        { eapply Forall_impl; [|exact H3]. intros z Hz. cbv beta in Hz. rewrite Z.land_lor_distr_l in Hz. apply Z.lor_eq_0_iff in Hz. exact Hz. }
        split; [apply NoDup_cons; [|exact H2]|].
        { intros I. rewrite Forall_forall in H6. destruct (H6 _ I) as [_ H7]. apply (flags_apart can x x L L) in H7. congruence. }
        split; [apply Forall_cons; [lia | eapply Forall_impl; [|exact H6]; intros z Hz; exact (proj1 Hz)]|].
        split; [rewrite H4, (mask_cons can x) by exact L; rewrite Z.lor_assoc; reflexivity|].
        rewrite H5. unfold zlen. cbn [length]. lia.
    + intros (_ & H1 & H2 & H3 & -> & ->). inversion H1 as [|? ? L H1']; subst. inversion H2 as [|? ? N H2']; subst. inversion H3 as [|? ? A H3']; subst.
      destruct (letter_flag can x L) as (F & D & C). destruct (x =? 45) eqn:E; [lia|]. rewrite F.
      destruct (Z.land can (flag_of x) =? 0) eqn:E1; [lia|]. rewrite A. cbn [Z.eqb negb].
      rewrite (mask_cons can) by exact L.
      destruct l as [|y l].
      * change (letters_mask []) with 0. rewrite Z.lor_0_r. reflexivity.
      * apply IH. split; [discriminate|]. split; [exact H1'|]. split; [exact H2'|]. split.
        -- rewrite Forall_forall in *. intros z Hz. rewrite Z.land_lor_distr_l. apply Z.lor_eq_0_iff. split; [apply H3'; exact Hz|].
           apply (flags_apart can); [exact L | apply H1'; exact Hz | intros ->; exact (N Hz)].
        -- split; [rewrite Z.lor_assoc; reflexivity|]. unfold zlen. cbn [length]. lia.
Qed.

Lemma types_over can l : forall mask count, l <> [] -> types can mask count l <> Over.
Proof.
  induction l as [|x l IH]; intros mask count N; [congruence|]. cbn [types]. destruct (x =? 45); [discriminate|].
  destruct (type_flag x); [|discriminate]. destruct (_ =? 0); [discriminate|]. destruct (negb _); [discriminate|].
  destruct l as [|y l]; [discriminate|]. apply IH. discriminate.
Qed.

(* ----- the end of a name: media types only *)
Definition count_of (n : name) (sfx : list Z) : Z := match sfx with [] => n_count n | _ :: r => zlen r end.
Definition with_types (n : name) (types : Z) (sfx : list Z) : name :=
  {| n_seg := n_seg n; n_part := n_part n; n_ids := n_ids n; n_mask := types; n_count := count_of n sfx |}.

Lemma parse_types_iff flags n l n' : has flags OPTIONAL_MEDIA_TYPE = true ->
  parse_types flags n l = Ok n' <-> exists t, l <> [] /\ says_types (n_mask n) (45 :: l) t /\ n' = with_types n t (45 :: l).
Proof.
  intros HF. unfold parse_types. split.
  - destruct l as [|c l]; [discriminate|]. rewrite HF, andb_true_r.
    destruct ((c =? 118) || (c =? 97) || (c =? 116)); [|discriminate].
    destruct (types (n_mask n) 0 0 (c :: l)) as [[m k]| |] eqn:T; cbn [bind fst snd]; try discriminate.
    apply types_iff in T. destruct T as (H1 & H2 & H3 & H4 & H5 & H6). intros H. injection H as <-.
    exists (letters_mask (c :: l)). split; [discriminate|]. split.
    + right. exists (c :: l). split; [reflexivity|]. split; [discriminate|]. split; [exact H3|]. split; [exact H2 | reflexivity].
    + unfold with_types, count_of. rewrite H5, H6. rewrite Z.lor_0_l. reflexivity.
  - intros (t & NE & [[E _]|(ls & E & NL & ND & FA & ->)] & ->); [discriminate|]. injection E as E. subst ls.
    destruct l as [|c l]; [congruence|].
    assert (((c =? 118) || (c =? 97) || (c =? 116)) = true) as ->.
    { inversion FA as [|? ? HH _]; subst. destruct HH as [[-> _]|[[-> _]|[-> _]]]; reflexivity. }
    rewrite HF. cbn [andb].
    assert (types (n_mask n) 0 0 (c :: l) = Ok (Z.lor 0 (letters_mask (c :: l)), 0 + zlen (c :: l))) as ->.
    { apply types_iff. split; [discriminate|]. split; [exact FA|]. split; [exact ND|]. split; [|split; reflexivity].
      apply Forall_forall. intros z _. apply Z.land_0_l. }
    cbn [bind fst snd]. rewrite Z.lor_0_l, Z.add_0_l. reflexivity.
Qed.

Lemma parse_types_over flags n l : l <> [] -> parse_types flags n l <> Over.
Proof.
  intros N. unfold parse_types. destruct l as [|c l]; [congruence|]. destruct (_ && _); [|discriminate].
  pose proof (types_over (n_mask n) (c :: l) 0 0 N). destruct (types _ _ _ _); cbn [bind]; congruence.
Qed.

Lemma zlen_lt2 {A} (x : A) l : zlen (x :: l) <? 2 = match l with [] => true | _ => false end.
Proof. unfold zlen. destruct l; cbn [length]; [reflexivity | lia]. Qed.

Lemma says_dashed can sfx t : says_types can sfx t -> dashed sfx /\ stops sfx.
Proof. intros [[-> _]|(l & -> & _)]; (split; [|exact I || reflexivity]); [left; reflexivity | right; eexists; reflexivity]. Qed.

(* no ids in the options *)
Lemma parse_options_iff flags n l n' :
  has flags OPTIONAL_MEDIA_TYPE = true -> has flags (Z.lor OPTIONAL_VARIANTS OPTIONAL_SINGLE_VARIANT) = false ->
  parse_options flags n l = Ok n' <-> exists t, says_types (n_mask n) l t /\ n' = with_types n t l.
Proof.
  intros HT HV. unfold parse_options. destruct l as [|c l].
  - split.
    + intros H. injection H as <-. exists (n_mask n). split; [left; split; reflexivity|]. unfold with_types, count_of. destruct n; reflexivity.
    + intros (t & [[_ ->]|(ls & E & _)] & ->); [|discriminate]. unfold with_types, count_of. destruct n; reflexivity.
  - rewrite zlen_lt2. destruct (c =? 45) eqn:E; cbn [negb orb].
    + assert (c = 45) by lia. subst c. destruct l as [|d l].
      * split; [discriminate|]. intros (t & [[E1 _]|(ls & E1 & NL & _)] & _); [discriminate | injection E1 as <-; congruence].
      * rewrite HV, andb_false_r. rewrite parse_types_iff by exact HT. split.
        -- intros (t & _ & A & B). exists t. split; assumption.
        -- intros (t & A & B). exists t. split; [discriminate|]. split; assumption.
    + split; [discriminate|]. intros (t & [[E1 _]|(ls & E1 & _)] & _); [discriminate | injection E1 as E1 _; lia].
Qed.

Lemma variants_over fuel : forall ids l, (length l <= fuel)%nat -> l <> [] -> variants fuel ids l <> Over.
Proof.
  induction fuel as [|fuel IH]; intros ids l L N; [destruct l; [congruence | cbn in L; lia]|].
  cbn [variants]. destruct (extract (tl l)) as [cur r] eqn:X. apply extract_inv in X. destruct X as (X & _ & D).
  destruct r as [|c r1]; [discriminate|]. rewrite zlen_lt2. destruct (negb (c =? 45)); [discriminate|]. cbn [orb].
  destruct r1 as [|d r2]; [discriminate|]. destruct (d =? 115); [|discriminate].
  apply IH; [|discriminate]. destruct l as [|z l]; [congruence|]. cbn [tl length] in *.
  assert (length l = length cur + length (c :: d :: r2))%nat as E by (rewrite X, app_length; reflexivity). cbn [length] in *. lia.
Qed.

Lemma parse_options_over flags n l : parse_options flags n l <> Over.
Proof.
  unfold parse_options. destruct l as [|c l]; [discriminate|]. rewrite zlen_lt2. destruct (negb (c =? 45)); [discriminate|]. cbn [orb].
  destruct l as [|d l]; [discriminate|]. destruct (_ && _).
  - pose proof (variants_over (length (d :: l)) [] (d :: l) (le_n _)) as V. assert (d :: l <> []) as N by discriminate. specialize (V N).
    destruct (variants _ _ _) as [[v [l2|]]| |] eqn:E; cbn [bind fst snd]; try congruence.
    destruct (_ && _); [discriminate|]. apply parse_types_over.
    intros ->. clear - E.
    assert (forall fuel ids l v l2, variants fuel ids l = Ok (v, Some l2) -> l2 <> []) as G.
    { induction fuel as [|f IH]; intros ids l0 v0 l2 H; [discriminate|]. cbn [variants] in H. destruct (extract (tl l0)) as [cur r].
      destruct r as [|c r1]; [discriminate|]. destruct (_ || _); [discriminate|]. destruct r1 as [|x r2]; [discriminate|].
      destruct (x =? 115); [eapply IH; exact H|]. injection H as <- <-. discriminate. }
    exact (G _ _ _ _ _ E eq_refl).
  - apply parse_types_over. discriminate.
Qed.

(* the parser never reads past the end of the name *)
Lemma file_name_over flags n l : parse_file_name flags n l <> Over.
Proof.
  unfold parse_file_name.
  destruct (has flags REQUIRE_INDEX); [pose proof (parse_index_over l); destruct (parse_index l) as [[v r]| |]|]; cbn [bind fst snd]; try congruence;
  destruct (has flags REQUIRE_PART_INDEX);
  try (match goal with |- context [parse_index ?x] => pose proof (parse_index_over x); destruct (parse_index x) as [[v2 r2]| |] end; cbn [bind fst snd]; try congruence);
  (destruct (has flags REQUIRE_SINGLE_VARIANT);
   [cbn [bind fst snd]; match goal with |- context [expect 45 ?x] => destruct x as [|c1 [|c2 x2]]; cbn [expect]; try discriminate;
      [destruct (c1 =? 45); cbn [bind]; discriminate |
       destruct (c1 =? 45); cbn [bind expect]; try discriminate; destruct (c2 =? 115); cbn [bind]; try discriminate;
       destruct (extract x2) as [id rr]; cbn [bind fst snd]; apply parse_options_over] end
   | cbn [bind fst snd]; apply parse_options_over]).
Qed.

(* ----- the names of segments, parts and initialization segments *)
Lemma variant_iff flags n l n' :
  has flags OPTIONAL_MEDIA_TYPE = true -> has flags (Z.lor OPTIONAL_VARIANTS OPTIONAL_SINGLE_VARIANT) = false ->
  bind (bind (expect 45 l) (fun l1 => bind (expect 115 l1) (fun l2 =>
        let '(id, r) := extract l2 in Ok (set_ids id n, r)))) (fun s => parse_options flags (fst s) (snd s)) = Ok n'
  <-> exists id sfx t, l = 45 :: 115 :: id ++ sfx /\ ~ In 45 id /\ says_types (n_mask n) sfx t /\ n' = with_types (set_ids id n) t sfx.
Proof.
  intros HT HV. split.
  - destruct l as [|c1 [|c2 l]]; cbn [expect bind]; [discriminate | destruct (c1 =? 45); discriminate|].
    destruct (c1 =? 45) eqn:E1; cbn [bind expect]; [|discriminate]. destruct (c2 =? 115) eqn:E2; cbn [bind]; [|discriminate].
    destruct (extract l) as [id r] eqn:X. cbn [bind fst snd]. intros H. apply extract_inv in X. destruct X as (-> & N & _).
    apply (parse_options_iff flags _ _ _ HT HV) in H. destruct H as (t & S & ->).
    exists id, r, t. split; [f_equal; [lia | f_equal; lia]|]. split; [exact N|]. split; [exact S | reflexivity].
  - intros (id & sfx & t & -> & N & S & ->). cbn [expect]. rewrite Z.eqb_refl. cbn [bind expect]. rewrite Z.eqb_refl. cbn [bind].
    rewrite extract_ok; [|exact N | exact (proj1 (says_dashed _ _ _ S))]. cbn [bind fst snd].
    apply (parse_options_iff flags _ _ _ HT HV). exists t. split; [exact S | reflexivity].
Qed.

Lemma seg_name_iff n l n' :
  parse_file_name seg_flags n l = Ok n' <->
  exists ds i id sfx t, l = 45 :: ds ++ 45 :: 115 :: id ++ sfx /\ says_index ds i /\ ~ In 45 id
    /\ says_types (n_mask n) sfx t /\ n' = with_types (set_ids id (set_seg i n)) t sfx.
Proof.
  unfold parse_file_name. change (has seg_flags REQUIRE_INDEX) with true. change (has seg_flags REQUIRE_PART_INDEX) with false.
  change (has seg_flags REQUIRE_SINGLE_VARIANT) with true. split.
  - destruct (parse_index l) as [[i r]| |] eqn:P; cbn [bind fst snd]; try discriminate. intros H.
    apply (variant_iff seg_flags (set_seg i n) r n' eq_refl eq_refl) in H. destruct H as (id & sfx & t & -> & N & S & ->).
    apply parse_index_inv in P. destruct P as (ds & -> & D & _). exists ds, i, id, sfx, t. repeat (split; [assumption || reflexivity|]). reflexivity.
  - intros (ds & i & id & sfx & t & -> & D & N & S & ->). rewrite (parse_index_ok ds i) by (assumption || reflexivity). cbn [bind fst snd].
    apply (variant_iff seg_flags (set_seg i n) _ _ eq_refl eq_refl). exists id, sfx, t. repeat (split; [assumption || reflexivity|]). reflexivity.
Qed.

Lemma part_name_iff n l n' :
  parse_file_name (REQUIRE_PART_INDEX + seg_flags) n l = Ok n' <->
  exists ds i dk k id sfx t, l = 45 :: ds ++ 45 :: dk ++ 45 :: 115 :: id ++ sfx /\ says_index ds i /\ says_index dk k /\ ~ In 45 id
    /\ says_types (n_mask n) sfx t /\ n' = with_types (set_ids id (set_part k (set_seg i n))) t sfx.
Proof.
  unfold parse_file_name. change (has (REQUIRE_PART_INDEX + seg_flags) REQUIRE_INDEX) with true.
  change (has (REQUIRE_PART_INDEX + seg_flags) REQUIRE_PART_INDEX) with true.
  change (has (REQUIRE_PART_INDEX + seg_flags) REQUIRE_SINGLE_VARIANT) with true. split.
  - destruct (parse_index l) as [[i r]| |] eqn:P; cbn [bind fst snd]; try discriminate.
    destruct (parse_index r) as [[k r2]| |] eqn:P2; cbn [bind fst snd]; try discriminate. intros H.
    apply (variant_iff (REQUIRE_PART_INDEX + seg_flags) _ r2 n' eq_refl eq_refl) in H. destruct H as (id & sfx & t & -> & N & S & ->).
    apply parse_index_inv in P. destruct P as (ds & -> & D & _). apply parse_index_inv in P2. destruct P2 as (dk & -> & D2 & _).
    exists ds, i, dk, k, id, sfx, t. repeat (split; [assumption || reflexivity|]). reflexivity.
  - intros (ds & i & dk & k & id & sfx & t & -> & D & D2 & N & S & ->). rewrite (parse_index_ok ds i) by (assumption || reflexivity). cbn [bind fst snd].
    rewrite (parse_index_ok dk k) by (assumption || reflexivity). cbn [bind fst snd].
    apply (variant_iff (REQUIRE_PART_INDEX + seg_flags) _ _ _ eq_refl eq_refl). exists id, sfx, t. repeat (split; [assumption || reflexivity|]). reflexivity.
Qed.

Lemma playlist_name_iff n l n' :
  parse_file_name (REQUIRE_SINGLE_VARIANT + OPTIONAL_MEDIA_TYPE) n l = Ok n' <->
  exists id sfx t, l = 45 :: 115 :: id ++ sfx /\ ~ In 45 id /\ says_types (n_mask n) sfx t /\ n' = with_types (set_ids id n) t sfx.
Proof.
  unfold parse_file_name. change (has (REQUIRE_SINGLE_VARIANT + OPTIONAL_MEDIA_TYPE) REQUIRE_INDEX) with false.
  change (has (REQUIRE_SINGLE_VARIANT + OPTIONAL_MEDIA_TYPE) REQUIRE_PART_INDEX) with false.
  change (has (REQUIRE_SINGLE_VARIANT + OPTIONAL_MEDIA_TYPE) REQUIRE_SINGLE_VARIANT) with true. cbn [bind fst snd].
  apply variant_iff; reflexivity.
Qed.
