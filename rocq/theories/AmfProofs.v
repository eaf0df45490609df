(* Proofs about the AMF reader: what it reads depends only on the bytes in
   front of it, and what it stores stays within the destinations. *)
From Coq Require Import ZArith List Bool Lia ZifyBool ZifyNat.
From Verif Require Import Lists AmfModel AmfSpec.
Import ListNotations.
Open Scope Z_scope.

(* ---- getting bytes ---- *)

Lemma get_loop_spec : forall l off n acc,
  (off <= length (hd [] l))%nat -> (0 < n)%nat ->
  let fl := skipn off (concat l) in
  if Nat.leb n (length fl)
  then exists c, get_loop l off n acc = GOk (acc ++ firstn n fl) c /\ wf_ctx c /\ flat c = skipn n fl
  else get_loop l off n acc = GDone (acc ++ fl).
Proof.
  induction l as [|b l IH]; intros off n acc Hw Hn; cbn [hd concat] in *; cbn [length] in Hw.
  - assert (off = O) by (cbn in Hw; lia). subst. cbn.
    destruct n; [lia|]. cbn. now rewrite app_nil_r.
  - cbn [get_loop]. cbv zeta. rewrite skipn_app, app_length, skipn_length.
    replace (off - length b)%nat with O by lia. cbn [skipn].
    destruct (Nat.leb_spec (off + n) (length b)) as [H|H].
    + rewrite (proj2 (Nat.leb_le _ _)) by lia.
      eexists. split; [|split].
      * rewrite firstn_app, skipn_length.
        replace (n - (length b - off))%nat with O by lia. cbn [firstn].
        rewrite app_nil_r. reflexivity.
      * unfold wf_ctx. cbn. lia.
      * unfold flat. cbn [c_offset c_link concat].
        rewrite !skipn_app, skipn_length, skipn_skipn_add.
        replace (off + n - length b)%nat with O by lia.
        replace (n - (length b - off))%nat with O by lia. reflexivity.
    + specialize (IH O (n - (length b - off))%nat (acc ++ skipn off b)
                    ltac:(lia) ltac:(lia)). cbv zeta in IH. cbn [skipn] in IH.
      destruct (Nat.leb_spec (n - (length b - off)) (length (concat l))) as [H1|H1].
      * rewrite (proj2 (Nat.leb_le _ _)) by lia.
        destruct IH as (c & E & W & F). exists c. split; [|split; auto].
        -- rewrite E, firstn_app, skipn_length, (firstn_all2 (n:=n) (skipn off b)) by (rewrite skipn_length; lia).
           now rewrite app_assoc.
        -- rewrite F, skipn_app, skipn_length.
           rewrite (skipn_all2 (n:=n) (skipn off b)) by (rewrite skipn_length; lia). reflexivity.
      * rewrite (proj2 (Nat.leb_gt _ _)) by lia. rewrite IH. now rewrite app_assoc.
Qed.

Lemma get_spec c n : wf_ctx c ->
  (exists c1, get c n = GOk (firstn n (flat c)) c1 /\ wf_ctx c1 /\ flat c1 = skipn n (flat c) /\
     (n <= length (flat c))%nat) \/
  (get c n = GDone (flat c) /\ (length (flat c) < n)%nat).
Proof.
  intros W. unfold get. destruct n as [|n].
  - left. exists c. cbn. split; [auto|split; [auto|split; [auto|lia]]].
  - pose proof (get_loop_spec (c_link c) (c_offset c) (S n) [] W ltac:(lia)) as H.
    cbv zeta in H. fold (flat c) in H.
    destruct (Nat.leb_spec (S n) (length (flat c))) as [L|L].
    + destruct H as (c1 & E & W1 & F). left. exists c1. rewrite E. auto.
    + right. rewrite H. auto.
Qed.

Lemma get_ok c n x rest : wf_ctx c -> flat c = x ++ rest -> length x = n ->
  exists c1, get c n = GOk x c1 /\ wf_ctx c1 /\ flat c1 = rest.
Proof.
  intros W F L. destruct (get_spec c n W) as [(c1 & E & W1 & F1 & _)|(E & H)].
  - exists c1. subst n. rewrite F, firstn_app_exact in E. rewrite F, skipn_app_exact in F1. auto.
  - rewrite F, app_length in H. lia.
Qed.

(* ---- induction on descriptors ---- *)

Definition subs (d : dest) : list elt := match d with DElts es => es | _ => [] end.

Fixpoint elt_ind' (P : elt -> Prop)
    (H : forall ty o t x n d l, Forall P (subs d) -> P (Elt ty o t x n d l)) (e : elt) : P e :=
  match e with
  | Elt ty o t x n d l =>
      H ty o t x n d l
        match d as d return Forall P (subs d) with
        | DElts es =>
            (fix go (es : list elt) : Forall P es :=
               match es with
               | [] => Forall_nil P
               | e :: r => Forall_cons e (elt_ind' P H e) (go r)
               end) es
        | _ => Forall_nil P
        end
  end.

Lemma all_ok es :
  (fix go (es : list elt) : Prop := match es with [] => True | e :: r => ok_elt e /\ go r end) es
  <-> Forall ok_elt es.
Proof. induction es as [|e es IH]; [split; auto|]. rewrite Forall_cons_iff, IH. reflexivity. Qed.

Lemma all_strings id n es :
  (fix go (es : list elt) : Prop := match es with [] => True | e :: r => strings_only id n e /\ go r end) es
  <-> Forall (strings_only id n) es.
Proof. induction es as [|e es IH]; [split; auto|]. rewrite Forall_cons_iff, IH. reflexivity. Qed.

(* ---- what a reader may do with a destination ---- *)

(* The room the destination must have when a value of the type is read. *)
Definition fits (type : Z) (d : dest) (l : Z) : Prop :=
  let mem (n : nat) := match d with DNull => True | DMem _ cap => (n <= cap)%nat | _ => False end in
  if type =? T_NUMBER then mem 8%nat
  else if type =? T_BOOLEAN then mem 1%nat
  else if type =? T_STRING then
    match d with DNull => True | DMem _ cap => 1 <= l <= Z.of_nat cap | _ => False end
  else if (type =? T_OBJECT) || (type =? T_MIXED_ARRAY) || (type =? T_ARRAY) || (type =? T_VARIANT)
  then match d with DNull => True | DElts es => Forall ok_elt es | _ => False end
  else if type =? T_INT8 then mem 1%nat
  else if type =? T_INT16 then mem 2%nat
  else if type =? T_INT32 then mem 4%nat
  else True.

Lemma fits_null type l : fits type DNull l.
Proof.
  unfold fits. repeat match goal with |- context [if ?b then _ else _] => destruct b end; exact Logic.I.
Qed.

Lemma ok_typeless ty o x n d l : ok_elt (Elt ty o true x n d l) -> fits ty d l.
Proof.
  cbn [ok_elt]. unfold fits. rewrite andb_false_r.
  unfold T_NUMBER, T_BOOLEAN, T_STRING, T_OBJECT, T_MIXED_ARRAY, T_ARRAY, T_VARIANT, T_INT8, T_INT16, T_INT32.
  destruct (ty =? 0); [auto|]. destruct (ty =? 1); [auto|]. destruct (ty =? 2); [auto|].
  destruct d as [|id cap|es|id];
    destruct (ty =? 3), (ty =? 8), (ty =? 10), (ty =? 259); cbn [orb]; auto; apply all_ok.
Qed.

Lemma ok_typed ty o x n d l type : ok_elt (Elt ty o false x n d l) -> x = false ->
  compatible (ty mod 256) type = true -> fits type d l.
Proof.
  intros H -> C. cbn [ok_elt andb] in H. unfold fits, compatible in *.
  unfold T_NUMBER, T_BOOLEAN, T_STRING, T_OBJECT, T_MIXED_ARRAY, T_ARRAY, T_VARIANT, T_INT8, T_INT16, T_INT32 in *.
  assert (B : 0 <= ty mod 256 < 256) by (apply Z.mod_pos_bound; lia).
  destruct (Z.eq_dec ty (ty mod 256)) as [E|E].
  - rewrite <- E in C.
    destruct (Z.eqb_spec ty 0); [replace (type =? 0) with true by lia; auto|].
    destruct (Z.eqb_spec ty 1); [replace (type =? 0) with false by lia; replace (type =? 1) with true by lia; auto|].
    destruct (Z.eqb_spec ty 2);
      [replace (type =? 0) with false by lia; replace (type =? 1) with false by lia;
       replace (type =? 2) with true by lia; auto|].
    replace (type =? 0) with false by lia. replace (type =? 1) with false by lia.
    replace (type =? 2) with false by lia. replace (type =? 256) with false by lia.
    replace (type =? 257) with false by lia. replace (type =? 258) with false by lia.
    destruct ((ty =? 3) || (ty =? 8) || (ty =? 10)) eqn:G.
    + replace ((type =? 3) || (type =? 8) || (type =? 10)) with true by lia. cbn [orb].
      destruct d; auto. now rewrite all_ok in H.
    + replace ((type =? 3) || (type =? 8) || (type =? 10)) with false by lia.
      replace (type =? 259) with false by lia. exact Logic.I.
  - assert (d = DNull) as ->.
    { assert (ty < 0 \/ 256 <= ty)
        by (destruct (Z.lt_ge_cases ty 0); [auto|]; destruct (Z.lt_ge_cases ty 256); [|auto];
            exfalso; apply E; symmetry; apply Z.mod_small; lia).
      replace (ty =? 0) with false in H by lia. replace (ty =? 1) with false in H by lia.
      replace (ty =? 2) with false in H by lia. replace (ty =? 3) with false in H by lia.
      replace (ty =? 8) with false in H by lia. replace (ty =? 10) with false in H by lia.
      exact H. }
    apply (fits_null type l).
Qed.

Lemma fits_fields type d l :
  fits type d l ->
  type = T_OBJECT \/ type = T_MIXED_ARRAY \/ type = T_ARRAY \/ type = T_VARIANT ->
  exists es, fields d = Some es /\ Forall ok_elt es /\ es = subs d.
Proof.
  unfold fits, fields. intros H K.
  assert (match d with DNull => True | DElts es => Forall ok_elt es | _ => False end) as G.
  { destruct K as [->|[->|[->| ->]]]; exact H. }
  destruct d; try easy; eauto.
Qed.

(* ---- the stores ---- *)

Lemma prepend_status s r : r_status (prepend s r) = r_status r.
Proof. reflexivity. Qed.
Lemma prepend_ctx s r : r_ctx (prepend s r) = r_ctx r.
Proof. reflexivity. Qed.

(* A result that stays in bounds and is defined. *)
Definition safe (r : res) : Prop :=
  wf_ctx (r_ctx r) /\ r_status r <> SUB /\ Forall in_bounds (r_stores r).

Lemma safe_prepend s r : Forall in_bounds s -> safe r -> safe (prepend s r).
Proof.
  intros H (W & U & F). split; [exact W|split; [exact U|]].
  cbn. apply Forall_app. auto.
Qed.

Lemma read_rev_safe c n d : wf_ctx c ->
  match d with DNull => True | DMem _ cap => (n <= cap)%nat | _ => False end ->
  safe (read_rev c n d).
Proof.
  intros W H. unfold read_rev.
  destruct (get_spec c n W) as [(c1 & E & W1 & _ & L)|(E & _)]; rewrite E.
  - destruct d; cbn; try easy; unfold safe; cbn;
      (split; [auto|split; [discriminate|]]); [constructor|].
    constructor; [|constructor]. cbn. rewrite rev_length, firstn_length. lia.
  - unfold safe; cbn; split; [auto|split; [discriminate|constructor]].
Qed.

Lemma read_byte_safe c d : wf_ctx c ->
  match d with DNull => True | DMem _ cap => (1 <= cap)%nat | _ => False end ->
  safe (read_byte c d).
Proof.
  intros W H. unfold read_byte.
  destruct (get_spec c 1 W) as [(c1 & E & W1 & _ & L)|(E & L)]; rewrite E.
  - assert (L1 : (length (firstn 1 (flat c)) <= 1)%nat) by (rewrite firstn_length; lia).
    revert L1. generalize (firstn 1 (flat c)). intros x L1.
    destruct d; cbn; try easy; unfold safe; cbn;
      (split; [auto|split; [discriminate|]]); [constructor|].
    constructor; [|constructor]. cbn. lia.
  - destruct d; cbn; try easy; unfold safe; cbn;
      (split; [auto|split; [discriminate|]]); [constructor|].
    constructor; [|constructor]. cbn. lia.
Qed.

Ltac bnd := repeat (apply Forall_cons; [cbn; rewrite ?firstn_length; lia|]); apply Forall_nil.

Lemma read_string_safe c d l : wf_ctx c ->
  match d with DNull => True | DMem _ cap => 1 <= l <= Z.of_nat cap | _ => False end ->
  safe (read_string c d l).
Proof.
  intros W H. unfold read_string.
  destruct (get_spec c 2 W) as [(c1 & E & W1 & _ & L)|(E & L)]; rewrite E;
    [|unfold safe; cbn; split; [auto|split; [discriminate|constructor]]].
  generalize (be (firstn 2 (flat c))). intros n.
  destruct d as [|id cap|es|id]; try easy.
  - destruct (get_spec c1 (Z.to_nat n) W1) as [(c2 & E2 & W2 & _ & L2)|(E2 & L2)]; rewrite E2;
      unfold safe; cbn; (split; [auto|split; [discriminate|constructor]]).
  - destruct (Z.leb_spec l n) as [Hl|Hl].
    + replace (l <=? 0) with false by lia.
      destruct (get_spec c1 (Z.to_nat (l - 1)) W1) as [(c2 & E2 & W2 & _ & L2)|(E2 & L2)]; rewrite E2.
      * destruct (get_spec c2 (Z.to_nat (n - l + 1)) W2) as [(c3 & E3 & W3 & _ & L3)|(E3 & L3)]; rewrite E3;
          unfold safe; cbn; (split; [auto|split; [discriminate|]]);
          bnd.
      * unfold safe; cbn. split; [auto|split; [discriminate|]].
        bnd.
    + destruct (get_spec c1 (Z.to_nat n) W1) as [(c2 & E2 & W2 & _ & L2)|(E2 & L2)]; rewrite E2;
        unfold safe; cbn; (split; [auto|split; [discriminate|]]);
        bnd.
Qed.

Lemma err_safe c : wf_ctx c -> safe (err c []).
Proof. intros W. unfold safe; cbn; split; [auto|split; [discriminate|constructor]]. Qed.
Lemma ok_safe c : wf_ctx c -> safe (ok c []).
Proof. intros W. unfold safe; cbn; split; [auto|split; [discriminate|constructor]]. Qed.

Lemma read_body_safe ro ra rv c type d l :
  (forall c es, wf_ctx c -> Forall ok_elt es -> safe (ro c es)) ->
  (forall c es n, wf_ctx c -> Forall ok_elt es -> safe (ra c es n)) ->
  (forall c es, wf_ctx c -> Forall ok_elt es -> safe (rv c es)) ->
  wf_ctx c -> fits type d l -> safe (read_body ro ra rv c type d l).
Proof.
  intros Ho Ha Hv W F. unfold read_body.
  destruct (Z.eqb_spec type T_NUMBER) as [->|N0]; [apply read_rev_safe; auto|].
  destruct (Z.eqb_spec type T_BOOLEAN) as [->|N1]; [apply read_byte_safe; auto|].
  destruct (Z.eqb_spec type T_STRING) as [->|N2]; [apply read_string_safe; auto|].
  destruct (Z.eqb_spec type T_NULL) as [->|N3]; [apply ok_safe; auto|].
  destruct (Z.eqb_spec type T_ARRAY_NULL) as [->|N4]; [apply ok_safe; auto|].
  cbn [orb].
  destruct (Z.eqb_spec type T_MIXED_ARRAY) as [->|N5].
  { destruct (fits_fields _ _ _ F) as (es & E & K & _); [auto|]. rewrite E.
    destruct (get_spec c 4 W) as [(c1 & G & W1 & _)|(G & _)]; rewrite G; [auto|apply err_safe; auto]. }
  destruct (Z.eqb_spec type T_OBJECT) as [->|N6].
  { destruct (fits_fields _ _ _ F) as (es & E & K & _); [auto|]. rewrite E. auto. }
  destruct (Z.eqb_spec type T_ARRAY) as [->|N7].
  { destruct (fits_fields _ _ _ F) as (es & E & K & _); [auto|]. rewrite E.
    destruct (get_spec c 4 W) as [(c1 & G & W1 & _)|(G & _)]; rewrite G; [auto|apply err_safe; auto]. }
  destruct (Z.eqb_spec type T_VARIANT) as [->|N8].
  { destruct (fits_fields _ _ _ F) as (es & E & K & _); [auto|]. rewrite E. auto. }
  destruct (Z.eqb_spec type T_INT8) as [->|N9]; [apply read_byte_safe; auto|].
  destruct (Z.eqb_spec type T_INT16) as [->|N10]; [apply read_rev_safe; auto|].
  destruct (Z.eqb_spec type T_INT32) as [->|N11]; [apply read_rev_safe; auto|].
  destruct (type =? T_END).
  - unfold safe; cbn; split; [auto|split; [discriminate|constructor]].
  - apply err_safe; auto.
Qed.

Lemma find_in {A} (f : A -> bool) l x : find f l = Some x -> In x l /\ f x = true.
Proof. apply find_some. Qed.

Lemma alternative_cases es type :
  (exists e, In e es /\ e_ty e = type /\ e_opt e = false /\ e_typeless e = false /\ e_ctxf e = false /\
     alternative es type = Elt type false true false [] (e_data e) (e_len e)) \/
  alternative es type = Elt type false true false [] DNull 0.
Proof.
  unfold alternative.
  assert (forall es a, (exists e, In e es /\ e_ty e = type /\ e_opt e = false /\ e_typeless e = false /\ e_ctxf e = false /\
     fold_left (fun a e =>
       if (e_ty e =? type) && negb (e_opt e) && negb (e_typeless e) && negb (e_ctxf e)
       then Elt type false true false [] (e_data e) (e_len e) else a) es a
     = Elt type false true false [] (e_data e) (e_len e)) \/
     fold_left (fun a e =>
       if (e_ty e =? type) && negb (e_opt e) && negb (e_typeless e) && negb (e_ctxf e)
       then Elt type false true false [] (e_data e) (e_len e) else a) es a = a) as H.
  { clear es. induction es as [|e es IH]; intros a; [right; reflexivity|]. cbn [fold_left].
    destruct (IH (if (e_ty e =? type) && negb (e_opt e) && negb (e_typeless e) && negb (e_ctxf e)
       then Elt type false true false [] (e_data e) (e_len e) else a)) as [(e1 & I & T & O & TL & X & E)|E].
    - left. exists e1. cbn. auto 10.
    - rewrite E. destruct ((e_ty e =? type) && negb (e_opt e) && negb (e_typeless e) && negb (e_ctxf e)) eqn:K.
      + left. exists e. rewrite !andb_true_iff, !negb_true_iff in K. cbn. intuition lia.
      + right. reflexivity. }
  destruct (H es (Elt type false true false [] DNull 0)) as [K|K]; auto.
Qed.

Lemma ok_as_typeless ty d l : fits ty d l -> ok_elt (Elt ty false true false [] d l).
Proof.
  unfold fits. cbn [ok_elt andb].
  unfold T_NUMBER, T_BOOLEAN, T_STRING, T_OBJECT, T_MIXED_ARRAY, T_ARRAY, T_VARIANT, T_INT8, T_INT16, T_INT32.
  destruct (ty =? 0); [auto|]. destruct (ty =? 1); [auto|]. destruct (ty =? 2); [auto|].
  destruct d as [|id cap|es|id];
    destruct (ty =? 3), (ty =? 8), (ty =? 10), (ty =? 259); cbn [orb]; auto; apply all_ok.
Qed.

Lemma ok_alternative es type : Forall ok_elt es -> ok_elt (alternative es type).
Proof.
  intros H. destruct (alternative_cases es type) as [(e & I & T & O & TL & X & E)|E]; rewrite E.
  - rewrite Forall_forall in H. specialize (H e I).
    destruct e as [ty o t x n d l]. cbn [e_ty e_opt e_typeless e_ctxf e_data e_len] in *. subst.
    destruct (Z.eq_dec type (type mod 256)) as [M|M].
    + apply ok_as_typeless.
      apply (ok_typed type false false n d l type); auto.
      rewrite <- M. unfold compatible. rewrite Z.eqb_refl. reflexivity.
    + assert (d = DNull) as ->; [|apply ok_as_typeless, fits_null].
      assert (type < 0 \/ 256 <= type).
      { destruct (Z.lt_ge_cases type 0); [auto|]. destruct (Z.lt_ge_cases type 256); [|auto].
        exfalso; apply M; symmetry; apply Z.mod_small; lia. }
      cbn [ok_elt andb] in H. unfold T_NUMBER, T_BOOLEAN, T_STRING, T_OBJECT, T_MIXED_ARRAY, T_ARRAY in H.
      replace (type =? 0) with false in H by lia. replace (type =? 1) with false in H by lia.
      replace (type =? 2) with false in H by lia. replace (type =? 3) with false in H by lia.
      replace (type =? 8) with false in H by lia. replace (type =? 10) with false in H by lia.
      exact H.
  - apply ok_as_typeless, fits_null.
Qed.

Lemma max_name_acc es : forall m, (m <= fold_left (fun m e => Nat.max m (length (e_name e))) es m)%nat.
Proof. induction es as [|e es IH]; intros m; cbn; [lia|]. specialize (IH (Nat.max m (length (e_name e)))). lia. Qed.
Lemma max_name_in es e : In e es -> (length (e_name e) <= max_name es)%nat.
Proof.
  unfold max_name. generalize 0%nat. induction es as [|a es IH]; intros m H; [easy|].
  cbn. destruct H as [->|H]; [|auto].
  pose proof (max_name_acc es (Nat.max m (length (e_name e)))). lia.
Qed.

Lemma safe_then r k :
  safe r -> (wf_ctx (r_ctx r) -> safe k) ->
  safe (match r_status r with SCont | SStop => prepend (r_stores r) k | _ => r end).
Proof.
  intros (W & U & F) K. destruct (r_status r) eqn:E; try (apply safe_prepend; auto; fail);
    (split; [exact W|split; [rewrite E; congruence|exact F]]).
Qed.

Lemma read_safe_all fuel :
  (forall c e, wf_ctx c -> match e with Some e => ok_elt e | None => True end -> safe (read_one fuel c e)) /\
  (forall c es, wf_ctx c -> Forall ok_elt es -> safe (read_object fuel c es)) /\
  (forall c es n, wf_ctx c -> Forall ok_elt es -> safe (read_array fuel c es n)) /\
  (forall c es, wf_ctx c -> Forall ok_elt es -> safe (read_variant fuel c es)).
Proof.
  induction fuel as [|f (IH1 & IHo & IHa & IHv)].
  { split; [|split; [|split]]; intros; (split; [auto|split; [discriminate|constructor]]). }
  split; [|split; [|split]].
  - intros c e W K. cbn [read_one].
    assert (B : forall c t d l, wf_ctx c -> fits t d l ->
              safe (read_body (read_object f) (read_array f) (read_variant f) c t d l))
      by (intros; apply read_body_safe; auto).
    destruct e as [[ty o t x n d l]|].
    + destruct t.
      * destruct (o || x); [apply err_safe; auto|]. apply B; [auto|]. eapply ok_typeless; eauto.
      * destruct (get_spec c 1 W) as [(c1 & E & W1 & _)|(E & _)]; rewrite E; cbn [e_opt e_ty e_data e_len e_ctxf].
        -- destruct x.
           ++ assert (D : match d with DNull | DCtx _ => True | _ => False end) by exact K.
              destruct (compatible (ty mod 256) (be (firstn 1 (flat c)))).
              ** destruct d; try easy.
                 --- apply B; auto using fits_null.
                 --- apply safe_prepend; [repeat constructor|]. apply B; auto using fits_null.
              ** apply B; auto using fits_null.
           ++ apply B; [auto|]. destruct (compatible (ty mod 256) _) eqn:C.
              ** eapply ok_typed; eauto.
              ** apply fits_null.
        -- destruct o; [|apply err_safe; auto].
           split; [auto|split; [discriminate|constructor]].
    + destruct (get_spec c 1 W) as [(c1 & E & W1 & _)|(E & _)]; rewrite E.
      * apply B; auto using fits_null.
      * apply err_safe; auto.
  - intros c es W K. cbn [read_object].
    destruct (get_spec c 2 W) as [(c1 & E & W1 & _)|(E & _)]; rewrite E; [|apply ok_safe; auto].
    set (n := Z.to_nat _).
    destruct (Nat.eqb_spec n 0).
    + destruct (get_spec c1 1 W1) as [(c2 & E2 & W2 & _)|(E2 & _)]; rewrite E2; [|apply err_safe; auto].
      destruct (be _ =? T_END); [apply ok_safe; auto|apply err_safe; auto].
    + set (first := if Nat.leb n (max_name es) then n else max_name es).
      assert (Hf : (first <= max_name es)%nat)
        by (unfold first; destruct (Nat.leb_spec n (max_name es)); lia).
      destruct (get_spec c1 first W1) as [(c2 & E2 & W2 & _ & L2)|(E2 & _)]; rewrite E2; [|apply err_safe; auto].
      replace (Nat.ltb (max_name es) (length (firstn first (flat c1)))) with false
        by (rewrite firstn_length; lia).
      destruct (get_spec c2 (n - first) W2) as [(c3 & E3 & W3 & _)|(E3 & _)]; rewrite E3; [|apply err_safe; auto].
      apply safe_then; [|intros; apply IHo; auto].
      apply IH1; auto. destruct (lookup es n _) as [e|] eqn:L; [|auto].
      unfold lookup in L. apply find_some in L. rewrite Forall_forall in K. apply K. tauto.
  - intros c es n W K. cbn [read_array]. destruct (n <=? 0); [apply ok_safe; auto|].
    apply safe_then.
    + apply IH1; auto. destruct es; cbn; [auto|]. now inversion K.
    + intros W1. apply IHa; auto. destruct es; cbn; [auto|]. now inversion K.
  - intros c es W K. cbn [read_variant].
    destruct (get_spec c 1 W) as [(c1 & E & W1 & _)|(E & _)]; rewrite E; [|apply err_safe; auto].
    assert (S1 : safe (read_one f c1 (Some (alternative es (be (firstn 1 (flat c)))))))
      by (apply IH1; auto; apply ok_alternative; auto).
    destruct (r_status _) eqn:Q; auto.
    destruct S1 as (A & B & C). split; [exact A|split; [discriminate|exact C]].
Qed.

Lemma read_safe fuel : forall es c, wf_ctx c -> Forall ok_elt es -> safe (read fuel c es).
Proof.
  induction es as [|e es IH]; intros c W K; cbn [read]; [apply ok_safe; auto|].
  inversion K; subst.
  pose proof (proj1 (read_safe_all fuel) c (Some e) W H1) as S1.
  destruct (r_status _) eqn:Q; auto.
  - apply safe_prepend; [apply S1|]. apply IH; auto. apply S1.
  - destruct S1 as (A & B & C). split; [exact A|split; [discriminate|exact C]].
Qed.
