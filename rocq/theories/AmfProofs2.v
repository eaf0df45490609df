(* Proofs about the AMF reader: it always comes to an end, and strings are
   terminated. *)
From Coq Require Import ZArith List Bool Lia ZifyBool ZifyNat.
From Verif Require Import Lists AmfModel AmfSpec AmfProofs.
Import ListNotations.
Open Scope Z_scope.

(* ---- the reader never goes back ---- *)

Definition left_in (c : ctx) : nat := length (flat c).
Definition shrinks (c : ctx) (r : res) : Prop :=
  wf_ctx (r_ctx r) /\ (left_in (r_ctx r) <= left_in c)%nat.

Lemma get_left c n : wf_ctx c ->
  (exists x c1, get c n = GOk x c1 /\ wf_ctx c1 /\ (left_in c1 + n = left_in c)%nat) \/
  (exists x, get c n = GDone x /\ (left_in c < n)%nat).
Proof.
  intros W. destruct (get_spec c n W) as [(c1 & E & W1 & F & L)|(E & L)].
  - left. do 2 eexists. split; [exact E|split; [auto|]]. unfold left_in. rewrite F, skipn_length. lia.
  - right. eexists. split; [exact E|exact L].
Qed.

Lemma shrinks_refl c st s : wf_ctx c -> shrinks c (mkRes st c s).
Proof. intros W. split; cbn; [auto|lia]. Qed.
Lemma shrinks_le c c1 st s : wf_ctx c1 -> (left_in c1 <= left_in c)%nat -> shrinks c (mkRes st c1 s).
Proof. intros W. split; cbn; [auto|lia]. Qed.
Lemma shrinks_from c c1 r : (left_in c1 <= left_in c)%nat -> shrinks c1 r -> shrinks c r.
Proof. intros L [W H]. split; [auto|lia]. Qed.
Lemma shrinks_prepend c s r : shrinks c r -> shrinks c (prepend s r).
Proof. intros H. exact H. Qed.
Lemma shrinks_stores c c1 o k : wf_ctx c1 -> (left_in c1 <= left_in c)%nat ->
  (forall s, shrinks c (k s)) -> shrinks c (with_stores o c1 k).
Proof. intros W L H. destruct o; cbn; [apply H|]. apply shrinks_le; auto. Qed.

Ltac gl c n W :=
  let x := fresh "x" in let c1 := fresh "c" in let E := fresh "E" in
  let W1 := fresh "W" in let L := fresh "L" in
  destruct (get_left c n W) as [(x & c1 & E & W1 & L)|(x & E & L)]; rewrite E.

Lemma read_rev_shrinks c n d : wf_ctx c -> shrinks c (read_rev c n d).
Proof.
  intros W. unfold read_rev. gl c n W; [|apply shrinks_refl; auto].
  apply shrinks_stores; [auto|lia|]. intros. apply shrinks_le; auto; lia.
Qed.
Lemma read_byte_shrinks c d : wf_ctx c -> shrinks c (read_byte c d).
Proof.
  intros W. unfold read_byte. gl c 1%nat W.
  - apply shrinks_stores; [auto|lia|]. intros. apply shrinks_le; auto; lia.
  - apply shrinks_stores; [auto|lia|]. intros. apply shrinks_le; auto; lia.
Qed.
Lemma read_string_shrinks c d l : wf_ctx c -> shrinks c (read_string c d l).
Proof.
  intros W. unfold read_string. gl c 2%nat W; [|apply shrinks_refl; auto].
  generalize (be x). intros n. destruct d as [|id cap|es|id].
  - gl c0 (Z.to_nat n) W0; apply shrinks_le; auto; lia.
  - destruct (l <=? n).
    + destruct (l <=? 0); [apply shrinks_le; auto; lia|].
      gl c0 (Z.to_nat (l - 1)) W0; [|apply shrinks_le; auto; lia].
      gl c1 (Z.to_nat (n - l + 1)) W1; apply shrinks_le; auto; lia.
    + gl c0 (Z.to_nat n) W0; apply shrinks_le; auto; lia.
  - apply shrinks_le; auto; lia.
  - apply shrinks_le; auto; lia.
Qed.

Lemma read_body_shrinks ro ra rv c type d l :
  (forall c es, wf_ctx c -> shrinks c (ro c es)) ->
  (forall c es n, wf_ctx c -> shrinks c (ra c es n)) ->
  (forall c es, wf_ctx c -> shrinks c (rv c es)) ->
  wf_ctx c -> shrinks c (read_body ro ra rv c type d l).
Proof.
  intros Ho Ha Hv W. unfold read_body.
  assert (U : shrinks c (ub c)) by (apply shrinks_refl; auto).
  destruct (type =? T_NUMBER); [apply read_rev_shrinks; auto|].
  destruct (type =? T_BOOLEAN); [apply read_byte_shrinks; auto|].
  destruct (type =? T_STRING); [apply read_string_shrinks; auto|].
  destruct ((type =? T_NULL) || (type =? T_ARRAY_NULL)); [apply shrinks_refl; auto|].
  destruct (type =? T_MIXED_ARRAY).
  { gl c 4%nat W; [|apply shrinks_refl; auto].
    destruct (fields d); [|apply shrinks_le; auto; lia].
    apply (shrinks_from _ c0); [lia|auto]. }
  destruct (type =? T_OBJECT); [destruct (fields d); auto|].
  destruct (type =? T_ARRAY).
  { destruct (fields d); auto. gl c 4%nat W; [|apply shrinks_refl; auto].
    apply (shrinks_from _ c0); [lia|auto]. }
  destruct (type =? T_VARIANT); [destruct (fields d); auto|].
  destruct (type =? T_INT8); [apply read_byte_shrinks; auto|].
  destruct (type =? T_INT16); [apply read_rev_shrinks; auto|].
  destruct (type =? T_INT32); [apply read_rev_shrinks; auto|].
  destruct (type =? T_END); apply shrinks_refl; auto.
Qed.

Definition went_on (s : status) : bool := match s with SCont | SStop => true | _ => false end.

Lemma shrinks_then c r k :
  shrinks c r -> (wf_ctx (r_ctx r) -> shrinks (r_ctx r) k) ->
  shrinks c (match r_status r with SCont | SStop => prepend (r_stores r) k | _ => r end).
Proof.
  intros H K. destruct (r_status r); auto; apply shrinks_prepend;
    apply (shrinks_from _ (r_ctx r)); try apply H; apply K, H.
Qed.

Lemma shrinks_all fuel :
  (forall c e, wf_ctx c -> shrinks c (read_one fuel c e) /\
     (e = None -> went_on (r_status (read_one fuel c e)) = true ->
        (left_in (r_ctx (read_one fuel c e)) < left_in c)%nat)) /\
  (forall c es, wf_ctx c -> shrinks c (read_object fuel c es)) /\
  (forall c es n, wf_ctx c -> shrinks c (read_array fuel c es n)) /\
  (forall c es, wf_ctx c -> shrinks c (read_variant fuel c es)).
Proof.
  induction fuel as [|f (IH1 & IHo & IHa & IHv)].
  { split; [|split; [|split]]; intros; try (apply shrinks_refl; auto; fail).
    split; [apply shrinks_refl; auto|discriminate]. }
  split; [|split; [|split]].
  - intros c e W.
    assert (B : forall c t d l, wf_ctx c ->
              shrinks c (read_body (read_object f) (read_array f) (read_variant f) c t d l))
      by (intros; apply read_body_shrinks; auto).
    assert (B1 : forall c1 t d l, wf_ctx c1 -> (left_in c1 + 1 = left_in c)%nat ->
              shrinks c (read_body (read_object f) (read_array f) (read_variant f) c1 t d l))
      by (intros; apply (shrinks_from _ c1); [lia|auto]).
    destruct e as [[ty o t x n d l]|].
    + split; [|discriminate]. cbn [read_one]. destruct t.
      * destruct (o || x); [apply shrinks_refl; auto|]. apply B; auto.
      * gl c 1%nat W; cbn [e_opt e_ty e_data e_len e_ctxf].
        -- destruct x; [|apply B1; auto].
           destruct (if compatible _ _ then d else DNull); try (apply B1; auto; fail);
             try (apply shrinks_le; auto; lia).
        -- destruct o; apply shrinks_refl; auto.
    + cbn [read_one]. gl c 1%nat W.
      * split; [apply B1; auto|]. intros _ _.
        destruct (B c0 (be x) DNull 0 W0) as [_ L1]. lia.
      * split; [apply shrinks_refl; auto|discriminate].
  - intros c es W. cbn [read_object].
    gl c 2%nat W; [|apply shrinks_refl; auto].
    destruct (Nat.eqb (Z.to_nat (be x)) 0).
    + gl c0 1%nat W0; [|apply shrinks_le; auto; lia].
      destruct (be x0 =? T_END); apply shrinks_le; auto; lia.
    + set (first := if Nat.leb _ _ then _ else _).
      gl c0 first W0; [|apply shrinks_le; auto; lia].
      destruct (Nat.ltb _ _); [apply shrinks_le; auto; lia|].
      match goal with |- context [get c1 ?m] => gl c1 m W1 end; [|apply shrinks_le; auto; lia].
      apply shrinks_then; [|intros; apply IHo; auto].
      apply (shrinks_from _ c2); [lia|]. apply IH1; auto.
  - intros c es n W. cbn [read_array]. destruct (n <=? 0); [apply shrinks_refl; auto|].
    apply shrinks_then; [apply IH1; auto|]. intros. apply IHa; auto.
  - intros c es W. cbn [read_variant].
    gl c 1%nat W; [|apply shrinks_refl; auto].
    assert (S1 : shrinks c (read_one f c0 (Some (alternative es (be x)))))
      by (apply (shrinks_from _ c0); [lia|]; apply IH1; auto).
    destruct (r_status _) eqn:Q; auto.
Qed.

(* ---- enough fuel ---- *)

Definition osize (e : option elt) : nat := match e with Some e => esize e | None => O end.

Lemma esize_subs ty o t x n d l : esize (Elt ty o t x n d l) = S (sizes (subs d)).
Proof.
  cbn [esize]. f_equal. destruct d; reflexivity.
Qed.
Lemma esize_pos e : (1 <= esize e)%nat.
Proof. destruct e. rewrite esize_subs. lia. Qed.
Lemma sizes_in es e : In e es -> (esize e <= sizes es)%nat.
Proof.
  unfold sizes. induction es as [|a es IH]; [easy|]. cbn. intros [->|H]; [lia|].
  specialize (IH H). lia.
Qed.
Lemma alternative_size es type : (esize (alternative es type) <= Nat.max 1 (sizes es))%nat.
Proof.
  destruct (alternative_cases es type) as [(e & I & _ & _ & _ & _ & E)|E]; rewrite E, esize_subs.
  - apply sizes_in in I. destruct e as [ty o t x n d l]. rewrite esize_subs in I. cbn [e_data]. lia.
  - cbn [subs sizes fold_right]. lia.
Qed.

Definition done (r : res) : Prop := r_status r <> SFuel.

Lemma read_rev_done c n d : done (read_rev c n d).
Proof. unfold read_rev. destruct (get c n); [destruct (store_rev d x)|]; discriminate. Qed.
Lemma read_byte_done c d : done (read_byte c d).
Proof. unfold read_byte. destruct (get c 1); destruct (store_at d 0 x); discriminate. Qed.
Lemma read_string_done c d l : done (read_string c d l).
Proof.
  unfold read_string. destruct (get c 2); [|discriminate]. destruct d; try discriminate.
  - destruct (get c0 _); discriminate.
  - destruct (l <=? be x).
    + destruct (l <=? 0); [discriminate|]. destruct (get c0 _); [|discriminate].
      destruct (get c1 _); discriminate.
    + destruct (get c0 _); discriminate.
Qed.

Lemma read_body_done ro ra rv c type d l (k : nat) :
  (forall c es, wf_ctx c -> (2 * left_in c + 2 * sizes es + 3 <= k)%nat -> done (ro c es)) ->
  (forall c es n, wf_ctx c -> (2 * left_in c + 2 * sizes es + 3 <= k)%nat -> done (ra c es n)) ->
  (forall c es, wf_ctx c -> (2 * left_in c + 2 * sizes es + 3 <= k)%nat -> done (rv c es)) ->
  wf_ctx c -> (2 * left_in c + 2 * sizes (subs d) + 3 <= k)%nat ->
  done (read_body ro ra rv c type d l).
Proof.
  intros Ho Ha Hv W K. unfold read_body.
  assert (D : fields d = None \/ fields d = Some (subs d)) by (destruct d; auto).
  destruct (type =? T_NUMBER); [apply read_rev_done|].
  destruct (type =? T_BOOLEAN); [apply read_byte_done|].
  destruct (type =? T_STRING); [apply read_string_done|].
  destruct ((type =? T_NULL) || (type =? T_ARRAY_NULL)); [discriminate|].
  destruct (type =? T_MIXED_ARRAY).
  { gl c 4%nat W; [|discriminate]. destruct D as [D|D]; rewrite D; [discriminate|].
    apply Ho; [auto|lia]. }
  destruct (type =? T_OBJECT).
  { destruct D as [D|D]; rewrite D; [discriminate|]. auto. }
  destruct (type =? T_ARRAY).
  { destruct D as [D|D]; rewrite D; [discriminate|]. gl c 4%nat W; [|discriminate].
    apply Ha; [auto|lia]. }
  destruct (type =? T_VARIANT).
  { destruct D as [D|D]; rewrite D; [discriminate|]. auto. }
  destruct (type =? T_INT8); [apply read_byte_done|].
  destruct (type =? T_INT16); [apply read_rev_done|].
  destruct (type =? T_INT32); [apply read_rev_done|].
  destruct (type =? T_END); discriminate.
Qed.

Lemma done_then r k : done r -> (went_on (r_status r) = true -> done k) ->
  done (match r_status r with SCont | SStop => prepend (r_stores r) k | _ => r end).
Proof. intros H K. destruct (r_status r) eqn:E; auto; apply K; reflexivity. Qed.

Lemma done_all fuel :
  (forall c e, wf_ctx c -> (2 * left_in c + 2 * osize e + 2 <= fuel)%nat -> done (read_one fuel c e)) /\
  (forall c es, wf_ctx c -> (2 * left_in c + 2 * sizes es + 3 <= fuel)%nat -> done (read_object fuel c es)) /\
  (forall c es n, wf_ctx c -> (2 * left_in c + 2 * sizes es + 3 <= fuel)%nat -> done (read_array fuel c es n)) /\
  (forall c es, wf_ctx c -> (2 * left_in c + 2 * sizes es + 3 <= fuel)%nat -> done (read_variant fuel c es)).
Proof.
  induction fuel as [|f (IH1 & IHo & IHa & IHv)].
  { split; [|split; [|split]]; intros; lia. }
  split; [|split; [|split]].
  - intros c e W K. cbn [read_one].
    assert (B : forall c t d l, wf_ctx c -> (2 * left_in c + 2 * sizes (subs d) + 3 <= f)%nat ->
              done (read_body (read_object f) (read_array f) (read_variant f) c t d l))
      by (intros; eapply read_body_done; eauto).
    destruct e as [[ty o t x n d l]|].
    + cbn [osize] in K. rewrite esize_subs in K. destruct t.
      * destruct (o || x); [discriminate|]. apply B; auto. lia.
      * gl c 1%nat W; cbn [e_opt e_ty e_data e_len e_ctxf].
        -- assert (B0 : done (read_body (read_object f) (read_array f) (read_variant f) c0 (be x0) DNull l))
             by (apply B; auto; cbn; lia).
           destruct x.
           ++ destruct (if compatible _ _ then d else DNull); try discriminate; exact B0.
           ++ destruct (compatible _ _); [|exact B0]. apply B; auto. lia.
        -- destruct o; discriminate.
    + cbn [osize] in K. gl c 1%nat W; [|discriminate]. apply B; auto. cbn. lia.
  - intros c es W K. cbn [read_object].
    gl c 2%nat W; [|discriminate].
    destruct (Nat.eqb_spec (Z.to_nat (be x)) 0) as [Z0|Z0].
    + gl c0 1%nat W0; [|discriminate]. destruct (be x0 =? T_END); discriminate.
    + set (first := if Nat.leb _ _ then _ else _).
      gl c0 first W0; [|discriminate].
      destruct (Nat.ltb _ _); [discriminate|].
      match goal with |- context [get c1 ?m] => gl c1 m W1 end; [|discriminate].
      assert (L3 : (left_in c2 + 3 <= left_in c)%nat).
      { unfold first in *. destruct (Nat.leb_spec (Z.to_nat (be x)) (max_name es)); lia. }
      apply done_then.
      * apply IH1; auto. destruct (lookup es _ _) as [e|] eqn:Q; cbn [osize]; [|lia].
        apply find_some in Q. destruct Q as [Q _]. apply sizes_in in Q. lia.
      * intros _. pose proof (proj1 (shrinks_all f) c2 (lookup es (Z.to_nat (be x)) x0) W2) as [[W3 L5] _].
        apply IHo; auto. lia.
  - intros c es n W K. cbn [read_array]. destruct (n <=? 0); [discriminate|].
    pose proof (proj1 (shrinks_all f) c (hd_error es) W) as [[W3 L3] L4].
    apply done_then.
    + apply IH1; auto. destruct es as [|e es]; cbn [hd_error osize]; [lia|].
      cbn [sizes fold_right] in K. lia.
    + intros G. apply IHa; auto. destruct es as [|e es]; cbn [hd_error tl] in *.
      * specialize (L4 eq_refl G). lia.
      * cbn [sizes fold_right] in K. fold (sizes es) in K. pose proof (esize_pos e). lia.
  - intros c es W K. cbn [read_variant].
    gl c 1%nat W; [|discriminate].
    assert (S1 : done (read_one f c0 (Some (alternative es (be x))))).
    { apply IH1; auto. cbn [osize]. pose proof (alternative_size es (be x)). lia. }
    unfold done in *. destruct (r_status _) eqn:Q; try discriminate; congruence.
Qed.

Lemma read_done fuel : forall es c, wf_ctx c ->
  (2 * left_in c + 2 * sizes es + 2 <= fuel)%nat -> done (read fuel c es).
Proof.
  induction es as [|e es IH]; intros c W K; cbn [read]; [discriminate|].
  cbn [sizes fold_right] in K. fold (sizes es) in K.
  assert (D : done (read_one fuel c (Some e))) by (apply (proj1 (done_all fuel)); auto; cbn [osize]; lia).
  pose proof (proj1 (shrinks_all fuel) c (Some e) W) as [[W3 L3] _].
  unfold done in *. destruct (r_status (read_one fuel c (Some e))) eqn:Q; try congruence; cbn; try congruence.
  apply IH; auto. lia.
Qed.

(* ---- strings ---- *)

Section Strings.
Variable id : nat.
Variable len : Z.

Definition mine (s : store) : Prop := match s with SMem i _ _ _ => i = id | SCtx _ _ => False end.

Inductive tidy : bool -> list store -> Prop :=
| T_nil b : tidy b []
| T_other b s l : ~ mine s -> tidy b l -> tidy b (s :: l)
| T_pair b cap y l : Z.of_nat (length y) < len -> tidy b l ->
    tidy b (SMem id cap 0 y :: SMem id cap (length y) [0] :: l)
| T_cut cap y : Z.of_nat (length y) < len - 1 -> tidy false [SMem id cap 0 y]
| T_short cap y k : (length y <= k)%nat -> Z.of_nat k < len ->
    tidy false [SMem id cap 0 y; SMem id cap k [0]].

Lemma tidy_app b s l : tidy true s -> tidy b l -> tidy b (s ++ l).
Proof.
  remember true as t. intros H. revert Heqt. induction H; intros Ht L; cbn; try discriminate; auto.
  - apply T_other; auto.
  - apply T_pair; auto.
Qed.
Lemma tidy_false b s : tidy b s -> tidy false s.
Proof. induction 1; [apply T_nil|apply T_other|apply T_pair|apply T_cut|apply T_short]; auto. Qed.

Definition tidy_res (r : res) : Prop := tidy (went_on (r_status r)) (r_stores r).

(* What the descriptor of the destination allows. *)
Definition may (type : Z) (d : dest) (l : Z) : Prop :=
  match d with
  | DMem i _ => i = id -> type = T_STRING /\ l = len
  | DElts es => Forall (strings_only id len) es
  | _ => True
  end.

Lemma read_rev_tidy c n d l type : may type d l -> type <> T_STRING -> tidy_res (read_rev c n d).
Proof.
  intros M N. unfold read_rev. destruct (get c n); [|apply T_nil].
  destruct d; cbn; try apply T_nil. apply T_other; [|apply T_nil].
  cbn. intros ->. destruct M; auto.
Qed.
Lemma read_byte_tidy c d l type : may type d l -> type <> T_STRING -> tidy_res (read_byte c d).
Proof.
  intros M N. unfold read_byte. destruct (get c 1);
  destruct d; cbn; try apply T_nil; (apply T_other; [|apply T_nil]);
  cbn; intros ->; destruct M; auto.
Qed.
Lemma read_string_tidy c d l : wf_ctx c -> may T_STRING d l -> fits T_STRING d l ->
  tidy_res (read_string c d l).
Proof.
  intros W M F. unfold read_string.
  destruct (get_spec c 2 W) as [(c1 & E & W1 & _ & L)|(E & L)]; rewrite E; [|apply T_nil].
  generalize (be (firstn 2 (flat c))). intros n.
  destruct d as [|i cap|es|i]; try apply T_nil.
  - destruct (get c1 _); apply T_nil.
  - cbn in F. destruct (Nat.eq_dec i id) as [->|Ni].
    + destruct M as [_ Hl]; auto. subst l. unfold tidy_res.
      destruct (Z.leb_spec len n) as [Hl|Hl].
      * replace (len <=? 0) with false by lia.
        destruct (get_spec c1 (Z.to_nat (len - 1)) W1) as [(c2 & E2 & W2 & _ & L2)|(E2 & L2)]; rewrite E2.
        -- assert (LL : Z.to_nat (len - 1) = length (firstn (Z.to_nat (len - 1)) (flat c1)))
             by (rewrite firstn_length; lia).
           revert LL. generalize (firstn (Z.to_nat (len - 1)) (flat c1)). intros y LL.
           rewrite LL. destruct (get c2 _); cbn; apply T_pair; (lia || apply T_nil).
        -- cbn. apply T_cut. lia.
      * destruct (get_spec c1 (Z.to_nat n) W1) as [(c2 & E2 & W2 & _ & L2)|(E2 & L2)]; rewrite E2.
        -- assert (LL : Z.to_nat n = length (firstn (Z.to_nat n) (flat c1)))
             by (rewrite firstn_length; lia).
           revert LL. generalize (firstn (Z.to_nat n) (flat c1)). intros y LL.
           rewrite LL. cbn. apply T_pair; [lia|apply T_nil].
        -- cbn. apply T_short; lia.
    + assert (A : forall y k b, tidy b [SMem i cap 0 y; SMem i cap k [0]])
        by (intros; apply T_other; [exact Ni|]; apply T_other; [exact Ni|apply T_nil]).
      unfold tidy_res. destruct (l <=? n).
      * destruct (l <=? 0); [apply T_nil|]. destruct (get c1 _).
        -- destruct (get c0 _); cbn; apply A.
        -- cbn. apply T_other; [exact Ni|apply T_nil].
      * destruct (get c1 _); cbn; apply A.
Qed.

Definition okS (e : elt) : Prop := ok_elt e /\ strings_only id len e.

Lemma may_null type l : may type DNull l.
Proof. exact Logic.I. Qed.

Lemma read_body_tidy ro ra rv c type d l :
  (forall c es, wf_ctx c -> Forall okS es -> tidy_res (ro c es)) ->
  (forall c es n, wf_ctx c -> Forall okS es -> tidy_res (ra c es n)) ->
  (forall c es, wf_ctx c -> Forall okS es -> tidy_res (rv c es)) ->
  wf_ctx c -> fits type d l -> may type d l -> tidy_res (read_body ro ra rv c type d l).
Proof.
  intros Ho Ha Hv W F M. unfold read_body.
  assert (D : type = T_OBJECT \/ type = T_MIXED_ARRAY \/ type = T_ARRAY \/ type = T_VARIANT ->
              exists es, fields d = Some es /\ Forall okS es).
  { intros K. destruct (fits_fields _ _ _ F K) as (es & E & O & S). exists es. split; [exact E|].
    destruct d; cbn in E; try discriminate; injection E as <-; [constructor|].
    unfold may in M. unfold okS. rewrite Forall_forall in *. auto. }
  destruct (Z.eqb_spec type T_STRING) as [->|N]; [apply read_string_tidy; auto|].
  destruct (type =? T_NUMBER); [eapply read_rev_tidy; eauto|].
  destruct (type =? T_BOOLEAN); [eapply read_byte_tidy; eauto|].
  destruct ((type =? T_NULL) || (type =? T_ARRAY_NULL)); [apply T_nil|].
  destruct (Z.eqb_spec type T_MIXED_ARRAY) as [->|N5].
  { gl c 4%nat W; [|apply T_nil]. destruct D as (es & Q & O); [auto|]. rewrite Q. auto. }
  destruct (Z.eqb_spec type T_OBJECT) as [->|N6].
  { destruct D as (es & Q & O); [auto|]. rewrite Q. auto. }
  destruct (Z.eqb_spec type T_ARRAY) as [->|N7].
  { destruct D as (es & Q & O); [auto|]. rewrite Q. gl c 4%nat W; [auto|apply T_nil]. }
  destruct (Z.eqb_spec type T_VARIANT) as [->|N8].
  { destruct D as (es & Q & O); [auto 6|]. rewrite Q. auto. }
  destruct (type =? T_INT8); [eapply read_byte_tidy; eauto|].
  destruct (type =? T_INT16); [eapply read_rev_tidy; eauto|].
  destruct (type =? T_INT32); [eapply read_rev_tidy; eauto|].
  destruct (type =? T_END); apply T_nil.
Qed.

Lemma tidy_then r k : tidy_res r -> (went_on (r_status r) = true -> tidy_res k) ->
  tidy_res (match r_status r with SCont | SStop => prepend (r_stores r) k | _ => r end).
Proof.
  unfold tidy_res. intros H K. destruct (r_status r) eqn:E; try (rewrite E; exact H);
    cbn; apply tidy_app; auto.
Qed.

Lemma may_elt ty o t x n d l type :
  strings_only id len (Elt ty o t x n d l) ->
  (t = true -> type = ty) -> (t = false -> compatible (ty mod 256) type = true) ->
  may type d l.
Proof.
  intros K2 T1 T2. destruct d as [|i cap|es|i]; try exact Logic.I.
  - cbn [strings_only] in K2. intros Hi. destruct (K2 Hi) as [-> ->]. split; [|reflexivity].
    destruct t; [auto|]. specialize (T2 eq_refl). unfold compatible in T2.
    change (T_STRING mod 256) with 2 in T2.
    unfold T_STRING, T_OBJECT, T_MIXED_ARRAY in *. lia.
  - cbn [strings_only] in K2. now apply all_strings in K2.
Qed.

Lemma alternative_strings es type : Forall (strings_only id len) es ->
  strings_only id len (alternative es type).
Proof.
  intros H. destruct (alternative_cases es type) as [(e & I & T & O & TL & X & E)|E]; rewrite E; [|exact Logic.I].
  rewrite Forall_forall in H. specialize (H e I).
  destruct e as [ty o t x n d l]. cbn [e_ty e_opt e_typeless e_ctxf e_data e_len] in *. subst. exact H.
Qed.

Lemma tidy_all fuel :
  (forall c e, wf_ctx c -> match e with Some e => okS e | None => True end -> tidy_res (read_one fuel c e)) /\
  (forall c es, wf_ctx c -> Forall okS es -> tidy_res (read_object fuel c es)) /\
  (forall c es n, wf_ctx c -> Forall okS es -> tidy_res (read_array fuel c es n)) /\
  (forall c es, wf_ctx c -> Forall okS es -> tidy_res (read_variant fuel c es)).
Proof.
  induction fuel as [|f (IH1 & IHo & IHa & IHv)].
  { split; [|split; [|split]]; intros; apply T_nil. }
  split; [|split; [|split]].
  - intros c e W K. cbn [read_one].
    assert (B : forall c t d l, wf_ctx c -> fits t d l -> may t d l ->
              tidy_res (read_body (read_object f) (read_array f) (read_variant f) c t d l))
      by (intros; apply read_body_tidy; auto).
    destruct e as [[ty o t x n d l]|].
    + destruct K as [K1 K2]. destruct t.
      * destruct (o || x); [apply T_nil|]. apply B; [auto| |].
        -- eapply ok_typeless; eauto.
        -- eapply may_elt; eauto. discriminate.
      * gl c 1%nat W; cbn [e_opt e_ty e_data e_len e_ctxf].
        -- assert (B0 : tidy_res (read_body (read_object f) (read_array f) (read_variant f) c0 (be x0) DNull l))
             by (apply B; auto using fits_null, may_null).
           destruct x.
           ++ destruct (if compatible _ _ then d else DNull); try apply T_nil; [exact B0|].
              unfold tidy_res. cbn. apply T_other; [easy|exact B0].
           ++ destruct (compatible (ty mod 256) _) eqn:C; [|exact B0]. apply B; auto.
              ** eapply ok_typed; eauto.
              ** eapply may_elt; eauto. discriminate.
        -- destruct o; apply T_nil.
    + gl c 1%nat W; [|apply T_nil]. apply B; auto using fits_null, may_null.
  - intros c es W K. cbn [read_object].
    gl c 2%nat W; [|apply T_nil].
    destruct (Nat.eqb (Z.to_nat (be x)) 0).
    + gl c0 1%nat W0; [|apply T_nil]. destruct (be x0 =? T_END); apply T_nil.
    + set (first := if Nat.leb _ _ then _ else _).
      gl c0 first W0; [|apply T_nil].
      destruct (Nat.ltb _ _); [apply T_nil|].
      match goal with |- context [get c1 ?m] => gl c1 m W1 end; [|apply T_nil].
      apply tidy_then.
      * apply IH1; auto. destruct (lookup es _ _) as [e|] eqn:Q; [|auto].
        apply find_some in Q. rewrite Forall_forall in K. apply K. tauto.
      * intros _. pose proof (proj1 (shrinks_all f) c2 (lookup es (Z.to_nat (be x)) x0) W2) as [[W3 L5] _].
        apply IHo; auto.
  - intros c es n W K. cbn [read_array]. destruct (n <=? 0); [apply T_nil|].
    pose proof (proj1 (shrinks_all f) c (hd_error es) W) as [[W3 L3] _].
    apply tidy_then.
    + apply IH1; auto. destruct es; cbn; [auto|]. now inversion K.
    + intros _. apply IHa; auto. destruct es; cbn; [auto|]. now inversion K.
  - intros c es W K. cbn [read_variant].
    gl c 1%nat W; [|apply T_nil].
    assert (S1 : tidy_res (read_one f c0 (Some (alternative es (be x))))).
    { apply IH1; auto. unfold okS in *. split.
      - apply ok_alternative. eapply Forall_impl; [|exact K]. intros a [? ?]; auto.
      - apply alternative_strings. eapply Forall_impl; [|exact K]. intros a [? ?]; auto. }
    destruct (r_status _) eqn:Q; auto.
    unfold tidy_res in S1. rewrite Q in S1. exact S1.
Qed.

Lemma read_tidy fuel : forall es c, wf_ctx c -> Forall okS es -> tidy_res (read fuel c es).
Proof.
  induction es as [|e es IH]; intros c W K; cbn [read]; [apply T_nil|].
  inversion K; subst.
  pose proof (proj1 (tidy_all fuel) c (Some e) W H1) as S1.
  pose proof (proj1 (shrinks_all fuel) c (Some e) W) as [[W3 L3] _].
  destruct (r_status _) eqn:Q; auto.
  - unfold tidy_res in *. rewrite Q in S1. cbn. apply tidy_app; auto.
  - unfold tidy_res in *. rewrite Q in S1. exact S1.
Qed.

(* ---- the memory ---- *)

Lemma poke_length m off x : (off + length x <= length m)%nat -> length (poke m off x) = length m.
Proof. intros H. unfold poke. rewrite !app_length, firstn_length, skipn_length. lia. Qed.

Lemma nth_error_poke m off x i : (off + length x <= length m)%nat ->
  nth_error (poke m off x) i =
  if (Nat.ltb i off || Nat.leb (off + length x) i)%bool then nth_error m i else nth_error x (i - off).
Proof.
  intros H. unfold poke.
  destruct (Nat.ltb_spec i off) as [A|A]; cbn [orb].
  - rewrite nth_error_app1 by (rewrite firstn_length; lia).
    rewrite <- (firstn_skipn off m) at 2. rewrite nth_error_app1; [reflexivity|rewrite firstn_length; lia].
  - rewrite nth_error_app2 by (rewrite firstn_length; lia). rewrite firstn_length.
    replace (Nat.min off (length m)) with off by lia.
    destruct (Nat.leb_spec (off + length x) i) as [B|B].
    + rewrite nth_error_app2 by lia.
      rewrite <- (firstn_skipn (off + length x) m) at 2.
      rewrite nth_error_app2 by (rewrite firstn_length; lia). rewrite firstn_length.
      f_equal. lia.
    + rewrite nth_error_app1 by lia. reflexivity.
Qed.

Lemma not_mine_memory s m : ~ mine s -> put_store id m s = m.
Proof.
  destruct s as [i cap off x|]; [|reflexivity]. cbn. intros H.
  destruct (Nat.eqb_spec i id); [easy|reflexivity].
Qed.

Lemma mine_memory cap off x m : put_store id m (SMem id cap off x) = poke m off x.
Proof. cbn. now rewrite Nat.eqb_refl. Qed.

Lemma tidy_last b s : tidy b s -> forall m,
  len <= Z.of_nat (length m) -> nth_error m (Z.to_nat (len - 1)) = Some 0 ->
  nth_error (memory_after id m s) (Z.to_nat (len - 1)) = Some 0 /\
  length (memory_after id m s) = length m.
Proof.
  induction 1 as [b|b s l N T IH|b cap y l L T IH|cap y L|cap y k L K]; intros m Hm H0;
    unfold memory_after in *; cbn [fold_left].
  - auto.
  - rewrite not_mine_memory by auto. auto.
  - rewrite !mine_memory.
    assert (L1 : length (poke m 0 y) = length m) by (apply poke_length; lia).
    assert (L2 : length (poke (poke m 0 y) (length y) [0]) = length m)
      by (rewrite poke_length; cbn [length]; lia).
    rewrite <- L2. apply IH; [lia|].
    rewrite nth_error_poke by (cbn [length]; lia). cbn [length].
    destruct (Nat.eq_dec (Z.to_nat (len - 1)) (length y)) as [E|E].
    + rewrite E, Nat.ltb_irrefl. replace (Nat.leb (length y + 1) (length y)) with false by lia.
      rewrite Nat.sub_diag. reflexivity.
    + replace (Nat.leb (length y + 1) (Z.to_nat (len - 1))) with true by lia. rewrite orb_true_r.
      rewrite nth_error_poke by lia.
      replace (Nat.leb (0 + length y) (Z.to_nat (len - 1))) with true by lia. rewrite orb_true_r. exact H0.
  - rewrite mine_memory. rewrite nth_error_poke by lia. rewrite poke_length by lia. split; [|reflexivity].
    replace (Nat.leb (0 + length y) (Z.to_nat (len - 1))) with true by lia. rewrite orb_true_r. exact H0.
  - rewrite !mine_memory.
    assert (L1 : length (poke m 0 y) = length m) by (apply poke_length; lia).
    rewrite nth_error_poke by (cbn [length]; lia). rewrite poke_length by (cbn [length]; lia).
    split; [|exact L1]. cbn [length].
    destruct (Nat.eq_dec (Z.to_nat (len - 1)) k) as [E|E].
    + rewrite E, Nat.ltb_irrefl. replace (Nat.leb (k + 1) k) with false by lia.
      rewrite Nat.sub_diag. reflexivity.
    + replace (Nat.leb (k + 1) (Z.to_nat (len - 1))) with true by lia. rewrite orb_true_r.
      rewrite nth_error_poke by lia.
      replace (Nat.leb (0 + length y) (Z.to_nat (len - 1))) with true by lia. rewrite orb_true_r. exact H0.
Qed.

Lemma tidy_ended s : tidy true s -> forall m, len <= Z.of_nat (length m) ->
  (In 0 (firstn (Z.to_nat len) m) \/ Exists mine s) ->
  In 0 (firstn (Z.to_nat len) (memory_after id m s)).
Proof.
  remember true as t. induction 1 as [b|b s l N T IH|b cap y l L T IH|cap y L|cap y k L K];
    intros m Hm H0; try discriminate; unfold memory_after in *; cbn [fold_left].
  - destruct H0 as [H0|H0]; [exact H0|inversion H0].
  - rewrite not_mine_memory by auto. apply IH; auto.
    destruct H0 as [H0|H0]; auto. inversion H0; subst; [easy|auto].
  - rewrite !mine_memory.
    assert (L1 : length (poke m 0 y) = length m) by (apply poke_length; lia).
    apply IH; auto; [rewrite poke_length; cbn [length]; lia|]. left.
    apply (nth_error_In _ (length y)).
    assert (X : nth_error (poke (poke m 0 y) (length y) [0]) (length y) = Some 0).
    { rewrite nth_error_poke by (cbn [length]; lia). rewrite Nat.ltb_irrefl. cbn [length].
      replace (Nat.leb (length y + 1) (length y)) with false by lia. rewrite Nat.sub_diag. reflexivity. }
    rewrite <- X. rewrite <- (firstn_skipn (Z.to_nat len) (poke (poke m 0 y) (length y) [0])) at 2.
    rewrite nth_error_app1; [reflexivity|].
    rewrite firstn_length, poke_length by (cbn [length]; lia). lia.
Qed.

End Strings.
