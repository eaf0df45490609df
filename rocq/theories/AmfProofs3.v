(* Proofs about AMF: reading an encoded value, writing one. *)
From Coq Require Import ZArith List Bool Lia ZifyBool ZifyNat.
From Verif Require Import Lists AmfModel AmfSpec AmfProofs AmfProofs2.
Import ListNotations.
Open Scope Z_scope.

(* ---- values ---- *)

Section ValInd.
Variable P : val -> Prop.
Hypothesis Hnum : forall b, P (VNum b).
Hypothesis Hbool : forall x, P (VBool x).
Hypothesis Hstr : forall s, P (VStr s).
Hypothesis Hnull : P VNull.
Hypothesis Harrnull : P VArrNull.
Hypothesis Hobj : forall fs, Forall (fun p => P (snd p)) fs -> P (VObj fs).
Hypothesis Hmixed : forall h fs, Forall (fun p => P (snd p)) fs -> P (VMixed h fs).
Hypothesis Harr : forall vs, Forall P vs -> P (VArr vs).

Fixpoint val_ind' (v : val) : P v :=
  let go_fields := fix go (fs : list (list Z * val)) : Forall (fun p => P (snd p)) fs :=
    match fs with
    | [] => Forall_nil _
    | p :: r => Forall_cons p (val_ind' (snd p)) (go r)
    end in
  match v with
  | VNum b => Hnum b
  | VBool x => Hbool x
  | VStr s => Hstr s
  | VNull => Hnull
  | VArrNull => Harrnull
  | VObj fs => Hobj fs (go_fields fs)
  | VMixed h fs => Hmixed h fs (go_fields fs)
  | VArr vs => Harr vs ((fix go (vs : list val) : Forall P vs :=
      match vs with [] => Forall_nil _ | w :: r => Forall_cons w (val_ind' w) (go r) end) vs)
  end.
End ValInd.

Fixpoint encf (fs : list (list Z * val)) : list Z :=
  match fs with [] => [0; 0; 9] | (n, w) :: r => u16 (length n) ++ n ++ enc w ++ encf r end.
Fixpoint encl (vs : list val) : list Z := match vs with [] => [] | w :: r => enc w ++ encl r end.
Lemma enc_obj fs : enc_body (VObj fs) = encf fs.
Proof. induction fs as [|[n w] r IH]; [reflexivity|]. cbn [encf]. rewrite <- IH. reflexivity. Qed.
Lemma enc_mixed h fs : enc_body (VMixed h fs) = h ++ encf fs.
Proof. rewrite <- enc_obj. reflexivity. Qed.
Lemma enc_arr vs : enc_body (VArr vs) = u32 (length vs) ++ encl vs.
Proof.
  cbn [enc_body]. f_equal.
Qed.
Lemma encl_concat vs : encl vs = concat (map enc vs).
Proof. induction vs as [|w r IH]; [reflexivity|]. cbn. now rewrite IH. Qed.

Definition subx (e : option elt) (w : val) : list store :=
  match e with Some e => expected e w | None => [] end.
Fixpoint expf (es : list elt) (fs : list (list Z * val)) : list store :=
  match fs with [] => [] | (n, w) :: r => subx (field es n) w ++ expf es r end.
Fixpoint expl (es : list elt) (vs : list val) : list store :=
  match vs with [] => [] | w :: r => subx (hd_error es) w ++ expl (tl es) r end.
Lemma expect_obj fs d l : expect (VObj fs) d l = expf (elts_of d) fs.
Proof. induction fs as [|[n w] r IH]; [reflexivity|]. cbn [expf]. rewrite <- IH. reflexivity. Qed.
Lemma expect_mixed h fs d l : expect (VMixed h fs) d l = expf (elts_of d) fs.
Proof. rewrite <- (expect_obj fs d l). reflexivity. Qed.
Lemma expect_arr vs d l : expect (VArr vs) d l = expl (elts_of d) vs.
Proof.
  cbn [expect]. generalize (elts_of d). clear. induction vs as [|w r IH]; intros es; [reflexivity|].
  reflexivity.
Qed.

Lemma expl_nil vs : expl [] vs = [].
Proof. induction vs; cbn; auto. Qed.
Lemma expf_nil fs : expf [] fs = [].
Proof. induction fs as [|[n w] r IH]; cbn; auto. Qed.
Lemma expect_null v l : expect v DNull l = [].
Proof.
  destruct v; try reflexivity.
  - rewrite expect_obj. apply expf_nil.
  - rewrite expect_mixed. apply expf_nil.
  - rewrite expect_arr. apply expl_nil.
Qed.

Definition wf_field (p : list Z * val) : Prop :=
  (fst p <> [] /\ Z.of_nat (length (fst p)) < 65536) /\ wf_val (snd p).
Lemma wf_fields fs :
  (fix go (fs : list (list Z * val)) : Prop :=
       match fs with
       | [] => True
       | (n, w) :: r => (n <> [] /\ Z.of_nat (length n) < 65536) /\ wf_val w /\ go r
       end) fs <-> Forall wf_field fs.
Proof.
  induction fs as [|[n w] r IH]; [split; auto|]. rewrite Forall_cons_iff, IH. unfold wf_field. cbn. tauto.
Qed.
Lemma wf_vals vs :
  (fix go (vs : list val) : Prop := match vs with [] => True | w :: r => wf_val w /\ go r end) vs
  <-> Forall wf_val vs.
Proof. induction vs as [|w r IH]; [split; auto|]. rewrite Forall_cons_iff, IH. reflexivity. Qed.

(* ---- integers on the wire ---- *)

Lemma be_u16 n : Z.of_nat n < 65536 -> be (u16 n) = Z.of_nat n.
Proof.
  intros H. unfold be, u16. cbn [fold_left].
  pose proof (Z.div_mod (Z.of_nat n) 256). lia.
Qed.
Lemma be_u32 n : be (u32 n) = Z.of_nat n.
Proof.
  unfold be, u32. cbn [fold_left]. set (x := Z.of_nat n).
  assert (H1 : x = 256 * (x / 256) + x mod 256) by (apply Z.div_mod; lia).
  assert (H2 : x / 256 = 256 * (x / 65536) + (x / 256) mod 256).
  { replace (x / 65536) with (x / 256 / 256) by (rewrite Z.div_div by lia; reflexivity). apply Z.div_mod; lia. }
  assert (H3 : x / 65536 = 256 * (x / 16777216) + (x / 65536) mod 256).
  { replace (x / 16777216) with (x / 65536 / 256) by (rewrite Z.div_div by lia; reflexivity). apply Z.div_mod; lia. }
  lia.
Qed.
Lemma be_1 x : be [x] = x.
Proof. unfold be. cbn. lia. Qed.

(* ---- names ---- *)

Definition nameable (e : elt) : Prop := Forall (fun x => x <> 0) (e_name e).
Definition typedN (e : elt) : Prop := typed_elt e /\ nameable e.
Lemma all_typed es :
  (fix go (es : list elt) : Prop :=
        match es with
        | [] => True
        | e :: r => (typed_elt e /\ Forall (fun x => x <> 0) (e_name e)) /\ go r
        end) es <-> Forall typedN es.
Proof. induction es as [|e es IH]; [split; auto|]. rewrite Forall_cons_iff, IH. reflexivity. Qed.

Lemma strn_eqb_eq : forall b a, length a = length b -> Forall (fun x => x <> 0) b ->
  (strn_eqb a b = true <-> b = a).
Proof.
  induction b as [|y b IH]; intros [|x a] L N; try discriminate; cbn [strn_eqb]; [tauto|].
  inversion N; subst. injection L as L. rewrite andb_true_iff, orb_true_iff, (IH a L H2), Z.eqb_eq, Z.eqb_eq.
  split.
  - intros [-> [?|?]]; [easy|congruence].
  - intros E. injection E as -> ->. auto.
Qed.

Lemma lookup_field es n : Forall nameable es ->
  lookup es (length n) (firstn (max_name es) n) = field es n.
Proof.
  intros N. unfold lookup.
  assert (forall m es, (forall e, In e es -> (length (e_name e) <= m)%nat) -> Forall nameable es ->
    find (fun e => Nat.eqb (length n) (length (e_name e)) && strn_eqb (firstn m n) (e_name e)) es = field es n) as G.
  { clear. intros m. induction es as [|e es IH]; intros B N; [reflexivity|]. inversion N; subst.
    cbn [find field].
    destruct (list_eq_dec Z.eq_dec (e_name e) n) as [E|E].
    - assert (Hn : (length n <= m)%nat) by (rewrite <- E; apply B; left; reflexivity).
      rewrite firstn_all2 by lia. rewrite E, Nat.eqb_refl.
      rewrite (proj2 (strn_eqb_eq n n eq_refl ltac:(rewrite <- E; exact H1)) eq_refl). reflexivity.
    - destruct (Nat.eqb_spec (length n) (length (e_name e))) as [L|L].
      + assert (Hn : (length n <= m)%nat) by (rewrite L; apply B; left; reflexivity).
        replace (strn_eqb (firstn m n) (e_name e)) with (strn_eqb n (e_name e))
          by (rewrite firstn_all2 by lia; reflexivity).
        destruct (strn_eqb n (e_name e)) eqn:Q.
        * apply strn_eqb_eq in Q; auto. congruence.
        * cbn [andb]. apply IH; auto. intros; apply B; right; auto.
      + cbn [andb]. apply IH; auto. intros; apply B; right; auto. }
  apply G; auto. apply max_name_in.
Qed.

Lemma field_in es n e : field es n = Some e -> In e es.
Proof.
  induction es as [|a es IH]; [discriminate|]. cbn. destruct (list_eq_dec _ _ _).
  - intros H; injection H as ->. auto.
  - auto.
Qed.

(* ---- the descriptor of a value ---- *)

Definition ready (type : Z) (d : dest) (l : Z) : Prop :=
  fits type d l /\ Forall typedN (subs d).
Lemma ready_null type l : ready type DNull l.
Proof. split; [apply fits_null|constructor]. Qed.

Lemma typed_inv ty o t x n d l : typed_elt (Elt ty o t x n d l) ->
  x = false /\ (if t then o = false /\ ty = T_VARIANT else 0 <= ty < 256) /\ Forall typedN (subs d) /\
  (ty = T_VARIANT -> Forall (fun a => e_typeless a = false /\ e_opt a = false) (subs d)).
Proof.
  cbn [typed_elt]. intros (H1 & H2 & H3). split; [auto|split; [auto|]].
  destruct d; try (split; [constructor|intros; constructor]).
  destruct H3 as [H3 H4]. apply all_typed in H3. auto.
Qed.

Lemma tag_range v : 0 <= tag v < 256.
Proof. destruct v; cbn; lia. Qed.

Lemma compatible_takes e v : 0 <= e_ty e < 256 ->
  (compatible (e_ty e mod 256) (tag v) = true <-> takes e v).
Proof.
  intros H. rewrite Z.mod_small by lia. unfold compatible, takes.
  rewrite !orb_true_iff, !andb_true_iff, !Z.eqb_eq. tauto.
Qed.

Lemma alternative_last es v :
  Forall (fun a => e_typeless a = false /\ e_opt a = false /\ e_ctxf a = false) es ->
  alternative es (tag v) =
  match last_of_kind es v with
  | Some (d, l) => Elt (tag v) false true false [] d l
  | None => Elt (tag v) false true false [] DNull 0
  end.
Proof.
  unfold alternative. generalize (Elt (tag v) false true false [] DNull 0).
  induction es as [|e es IH]; intros a H; [reflexivity|]. inversion H as [|? ? (T & O & X) H2]; subst.
  cbn [fold_left last_of_kind]. rewrite IH by auto.
  destruct (last_of_kind es v) as [[d l]|]; [reflexivity|].
  rewrite T, O, X. cbn [negb]. rewrite !andb_true_r.
  destruct (Z.eq_dec (e_ty e) (tag v)) as [E|E].
  - rewrite E, Z.eqb_refl. reflexivity.
  - destruct (Z.eqb_spec (e_ty e) (tag v)); [easy|reflexivity].
Qed.

Lemma last_in es v d l : last_of_kind es v = Some (d, l) ->
  exists e, In e es /\ e_ty e = tag v /\ e_data e = d /\ e_len e = l.
Proof.
  induction es as [|e es IH]; [discriminate|]. cbn.
  destruct (last_of_kind es v) as [[d1 l1]|].
  - intros H. injection H as -> ->. destruct (IH eq_refl) as (e1 & I & K). exists e1. auto.
  - destruct (Z.eq_dec _ _); [|discriminate]. intros H. injection H as <- <-. exists e. auto.
Qed.

(* ---- reading an encoded value ---- *)

Definition reads_body (v : val) : Prop := wf_val v ->
  forall f c d l rest, wf_ctx c -> flat c = enc_body v ++ rest -> ready (tag v) d l ->
  (2 * length (enc_body v) + 1 <= f)%nat ->
  exists c1, read_body (read_object f) (read_array f) (read_variant f) c (tag v) d l = ok c1 (expect v d l) /\
    wf_ctx c1 /\ flat c1 = rest.

Definition okN (e : elt) : Prop := ok_elt e /\ typed_elt e.

Lemma reads_one v : reads_body v -> wf_val v ->
  forall f c e rest, wf_ctx c -> flat c = enc v ++ rest ->
  match e with Some e => okN e | None => True end ->
  (2 * length (enc v) + 2 <= f)%nat ->
  exists c1, read_one f c e = ok c1 (subx e v) /\ wf_ctx c1 /\ flat c1 = rest.
Proof.
  intros B Wv f c e rest W F K L. unfold enc in *. cbn [length] in L. cbn [app] in F.
  destruct f as [|f]; [lia|]. cbn [read_one].
  destruct (get_ok c 1 [tag v] (enc_body v ++ rest) W F eq_refl) as (c1 & E1 & W1 & F1).
  destruct e as [[ty o t x n d l]|].
  - destruct K as [K1 K2]. destruct (typed_inv _ _ _ _ _ _ _ K2) as (-> & T & TN & TV). destruct t.
    + destruct T as [-> ->]. cbn [orb].
      unfold read_body at 1.
      change (T_VARIANT =? T_NUMBER) with false. change (T_VARIANT =? T_BOOLEAN) with false.
      change (T_VARIANT =? T_STRING) with false. change (T_VARIANT =? T_NULL) with false.
      change (T_VARIANT =? T_ARRAY_NULL) with false. change (T_VARIANT =? T_MIXED_ARRAY) with false.
      change (T_VARIANT =? T_OBJECT) with false. change (T_VARIANT =? T_ARRAY) with false.
      change (T_VARIANT =? T_VARIANT) with true. cbn [orb].
      destruct (fits_fields T_VARIANT d l) as (es & Ef & Ok & Es);
        [eapply ok_typeless; eauto|auto|]. rewrite Ef.
      destruct f as [|f]; [lia|]. cbn [read_variant]. rewrite E1, be_1.
      specialize (TV eq_refl). rewrite <- Es in TV, TN.
      assert (TX : Forall (fun a => e_typeless a = false /\ e_opt a = false /\ e_ctxf a = false) es).
      { rewrite Forall_forall in *. intros a I. specialize (TV a I). specialize (TN a I).
        destruct TN as [Ta _]. destruct a as [ty1 o1 t1 x1 n1 d1 l1]. apply typed_inv in Ta. cbn in *. tauto. }
      pose proof (ok_alternative es (tag v) Ok) as OA.
      rewrite alternative_last in OA |- * by auto.
      assert (G : exists d1 l1, match last_of_kind es v with
         | Some (d, l) => Elt (tag v) false true false [] d l
         | None => Elt (tag v) false true false [] DNull 0
         end = Elt (tag v) false true false [] d1 l1 /\ Forall typedN (subs d1) /\
         expect v d1 l1 = subx (Some (Elt T_VARIANT false true false n d l)) v).
      { unfold subx, expected, target. cbn [e_ty e_data].
        destruct (Z.eq_dec T_VARIANT T_VARIANT) as [_|?]; [|easy].
        assert (EE : match d with DElts es => last_of_kind es v | _ => None end = last_of_kind es v).
        { destruct d; cbn [fields subs] in *; try discriminate; rewrite Es; reflexivity. }
        rewrite EE. destruct (last_of_kind es v) as [[d1 l1]|] eqn:Q.
        - exists d1, l1. split; [reflexivity|split; [|reflexivity]].
          destruct (last_in _ _ _ _ Q) as (a & I & _ & <- & _).
          rewrite Forall_forall in TN. specialize (TN a I). destruct TN as [Ta _].
          destruct a as [ty1 o1 t1 x1 n1 d1 l2]. apply typed_inv in Ta. cbn. tauto.
        - exists DNull, 0. split; [reflexivity|split; [constructor|]]. apply expect_null. }
      destruct G as (d1 & l1 & G1 & G2 & G3). rewrite G1 in *.
      destruct f as [|f]; [lia|]. cbn [read_one orb].
      destruct (B Wv f c1 d1 l1 rest W1 F1) as (c2 & E2 & W2 & F2).
      { split; [|exact G2]. eapply ok_typeless; exact OA. }
      { lia. }
      rewrite E2. cbn [r_status ok]. exists c2. rewrite <- G3. auto.
    + rewrite E1. cbn [e_opt e_ty e_data e_len e_ctxf]. rewrite be_1.
      set (e := Elt ty o false false n d l) in *.
      destruct (compatible (ty mod 256) (tag v)) eqn:C.
      * destruct (B Wv f c1 d l rest W1 F1) as (c2 & E2 & W2 & F2).
        { split; [|exact TN]. eapply ok_typed; eauto. }
        { lia. }
        rewrite E2. exists c2. split; [|auto]. f_equal. unfold subx, expected, target.
        destruct (Z.eq_dec (e_ty e) T_VARIANT) as [V|V]; [cbn in V; unfold T_VARIANT in V; lia|].
        destruct (takes_dec e v) as [_|N]; [reflexivity|]. exfalso. apply N.
        apply (compatible_takes e v); [cbn; lia|exact C].
      * destruct (B Wv f c1 DNull l rest W1 F1) as (c2 & E2 & W2 & F2);
          [apply ready_null|lia|].
        rewrite E2. exists c2. split; [|auto]. f_equal. unfold subx, expected, target.
        destruct (Z.eq_dec (e_ty e) T_VARIANT) as [V|V]; [cbn in V; unfold T_VARIANT in V; lia|].
        destruct (takes_dec e v) as [N|_]; [|apply expect_null]. exfalso.
        apply (compatible_takes e v) in N; [|cbn; lia]. cbn in N. congruence.
  - rewrite E1, be_1. destruct (B Wv f c1 DNull 0 rest W1 F1) as (c2 & E2 & W2 & F2);
      [apply ready_null|lia|].
    rewrite E2. exists c2. split; [|auto]. f_equal. apply expect_null.
Qed.

Lemma reads_fields fs : Forall (fun p => reads_body (snd p)) fs -> Forall wf_field fs ->
  forall f c es rest, wf_ctx c -> flat c = encf fs ++ rest ->
  Forall ok_elt es -> Forall typedN es -> (2 * length (encf fs) + 1 <= f)%nat ->
  exists c1, read_object f c es = ok c1 (expf es fs) /\ wf_ctx c1 /\ flat c1 = rest.
Proof.
  induction fs as [|[n w] r IH]; intros B Wf f c es rest W F Ok TN L.
  - destruct f as [|f]; [lia|]. cbn [read_object encf expf] in *.
    destruct (get_ok c 2 [0; 0] (9 :: rest) W F eq_refl) as (c1 & E1 & W1 & F1). rewrite E1.
    change (Z.to_nat (be [0; 0])) with O. cbn [Nat.eqb].
    destruct (get_ok c1 1 [9] rest W1 F1 eq_refl) as (c2 & E2 & W2 & F2). rewrite E2, be_1.
    exists c2. auto.
  - destruct f as [|f]; [lia|]. inversion B as [|? ? Bw Br]; inversion Wf as [|? ? [[Nn Ln] Ww] Wr]; subst.
    cbn [fst snd] in *. cbn [encf] in F, L. rewrite <- !app_assoc in F.
    rewrite !app_length in L. change (length (u16 (length n))) with 2%nat in L.
    cbn [read_object expf].
    destruct (get_ok c 2 (u16 (length n)) _ W F eq_refl) as (c1 & E1 & W1 & F1). rewrite E1.
    rewrite be_u16 by auto. rewrite Nat2Z.id.
    assert (Hn : (0 < length n)%nat) by (destruct n; [easy|cbn; lia]).
    destruct (Nat.eqb_spec (length n) 0); [lia|].
    set (first := if Nat.leb _ _ then _ else _).
    assert (Hf : first = Nat.min (length n) (max_name es)).
    { unfold first. destruct (Nat.leb_spec (length n) (max_name es)); lia. }
    assert (F1' : flat c1 = firstn first n ++ (skipn first n ++ enc w ++ encf r ++ rest)).
    { rewrite F1, (app_assoc (firstn first n)), firstn_skipn. reflexivity. }
    destruct (get_ok c1 first _ _ W1 F1') as (c2 & E2 & W2 & F2); [rewrite firstn_length; lia|]. rewrite E2.
    replace (Nat.ltb (max_name es) (length (firstn first n))) with false by (rewrite firstn_length; lia).
    destruct (get_ok c2 (length n - first) _ _ W2 F2) as (c3 & E3 & W3 & F3); [rewrite skipn_length; lia|].
    rewrite E3.
    assert (El : lookup es (length n) (firstn first n) = field es n).
    { rewrite <- lookup_field by (eapply Forall_impl; [|exact TN]; intros a [_ ?]; auto).
      f_equal. rewrite Hf. destruct (Nat.le_ge_cases (length n) (max_name es)) as [H|H].
      - rewrite Nat.min_l, !firstn_all2 by lia. reflexivity.
      - rewrite Nat.min_r by lia. reflexivity. }
    rewrite El.
    destruct (reads_one w Bw Ww f c3 (field es n) _ W3 F3) as (c4 & E4 & W4 & F4).
    { destruct (field es n) as [e|] eqn:Q; [|exact Logic.I]. apply field_in in Q.
      rewrite Forall_forall in *. split; [auto|]. apply (TN e Q). }
    { lia. }
    rewrite E4. cbn [r_status ok r_stores r_ctx].
    destruct (IH Br Wr f c4 es rest W4 F4 Ok TN) as (c5 & E5 & W5 & F5); [lia|].
    rewrite E5. exists c5. cbn. auto.
Qed.

Lemma reads_list vs : Forall reads_body vs -> Forall wf_val vs ->
  forall f c es rest, wf_ctx c -> flat c = encl vs ++ rest ->
  Forall ok_elt es -> Forall typedN es -> (2 * length (encl vs) + 3 <= f)%nat ->
  exists c1, read_array f c es (Z.of_nat (length vs)) = ok c1 (expl es vs) /\ wf_ctx c1 /\ flat c1 = rest.
Proof.
  induction vs as [|w r IH]; intros B Wf f c es rest W F Ok TN L.
  - destruct f as [|f]; [lia|]. cbn [read_array expl length]. cbn in F.
    exists c. auto.
  - destruct f as [|f]; [lia|]. inversion B as [|? ? Bw Br]; inversion Wf as [|? ? Ww Wr]; subst.
    cbn [encl] in F, L. rewrite <- !app_assoc in F. rewrite !app_length in L.
    assert (1 <= length (enc w))%nat by (unfold enc; cbn; lia).
    cbn [read_array expl]. replace (Z.of_nat (length (w :: r)) <=? 0) with false by (cbn; lia).
    destruct (reads_one w Bw Ww f c (hd_error es) _ W F) as (c4 & E4 & W4 & F4).
    { destruct es as [|e es]; [exact Logic.I|]. inversion Ok; inversion TN as [|? ? [? ?] ?]; subst.
      split; auto. }
    { lia. }
    rewrite E4. cbn [r_status ok r_stores r_ctx].
    replace (Z.of_nat (length (w :: r)) - 1) with (Z.of_nat (length r)) by (cbn [length]; lia).
    destruct (IH Br Wr f c4 (tl es) rest W4 F4) as (c5 & E5 & W5 & F5).
    { destruct es; [constructor|now inversion Ok]. }
    { destruct es; [constructor|now inversion TN]. }
    { lia. }
    rewrite E5. exists c5. cbn. auto.
Qed.

Lemma fits_mem type d l n : fits type d l ->
  (type = T_NUMBER /\ n = 8%nat) \/ (type = T_BOOLEAN /\ n = 1%nat) ->
  d = DNull \/ exists i cap, d = DMem i cap.
Proof.
  intros F [[-> _]|[-> _]]; unfold fits in F; destruct d; try easy; eauto.
Qed.

Lemma reads_body_all v : reads_body v.
Proof.
  induction v as [b|x|s| | |fs IH|h fs IH|vs IH] using val_ind';
    intros Wv f c d l rest W F [R TN] L; cbn [tag] in *.
  - change (read_body (read_object f) (read_array f) (read_variant f) c 0 d l) with (read_rev c 8 d).
    cbn [enc_body wf_val] in *. unfold read_rev.
    destruct (get_ok c 8 (rev b) rest W F) as (c1 & E & W1 & F1); [rewrite rev_length; auto|]. rewrite E.
    exists c1. split; [|auto].
    destruct d; try easy; cbn; rewrite ?rev_involutive; reflexivity.
  - change (read_body (read_object f) (read_array f) (read_variant f) c 1 d l) with (read_byte c d).
    cbn [enc_body wf_val] in *. unfold read_byte.
    destruct (get_ok c 1 [x] rest W F eq_refl) as (c1 & E & W1 & F1). rewrite E.
    exists c1. split; [|auto]. destruct d; try easy; reflexivity.
  - change (read_body (read_object f) (read_array f) (read_variant f) c 2 d l) with (read_string c d l).
    cbn [enc_body wf_val] in *. unfold read_string. rewrite <- app_assoc in F.
    destruct (get_ok c 2 (u16 (length s)) _ W F eq_refl) as (c1 & E & W1 & F1). rewrite E.
    rewrite be_u16 by auto. unfold fits in R. change (2 =? T_NUMBER) with false in R.
    change (2 =? T_BOOLEAN) with false in R. change (2 =? T_STRING) with true in R.
    destruct d as [|i cap|es|i]; try easy.
    + rewrite Nat2Z.id. destruct (get_ok c1 (length s) s rest W1 F1 eq_refl) as (c2 & E2 & W2 & F2).
      rewrite E2. exists c2. auto.
    + cbn [expect to_mem].
      destruct (Z.leb_spec l (Z.of_nat (length s))) as [H|H].
      * replace (l <=? 0) with false by lia. replace (Z.of_nat (length s) <? l) with false by lia.
        set (k := Z.to_nat (l - 1)).
        assert (F1' : flat c1 = firstn k s ++ (skipn k s ++ rest)) by (rewrite app_assoc, firstn_skipn; auto).
        destruct (get_ok c1 k _ _ W1 F1') as (c2 & E2 & W2 & F2); [rewrite firstn_length; lia|]. rewrite E2.
        destruct (get_ok c2 (Z.to_nat (Z.of_nat (length s) - l + 1)) _ _ W2 F2) as (c3 & E3 & W3 & F3);
          [rewrite skipn_length; lia|]. rewrite E3.
        exists c3. rewrite firstn_length. replace (Nat.min k (length s)) with k by lia. auto.
      * replace (Z.of_nat (length s) <? l) with true by lia. rewrite Nat2Z.id.
        destruct (get_ok c1 (length s) s rest W1 F1 eq_refl) as (c2 & E2 & W2 & F2). rewrite E2.
        exists c2. auto.
  - exists c. split; [reflexivity|auto].
  - exists c. split; [reflexivity|auto].
  - destruct (fits_fields T_OBJECT d l) as (es & Ef & Ok & Es); [exact R|auto|].
    change (read_body (read_object f) (read_array f) (read_variant f) c 3 d l)
      with (match fields d with None => ub c | Some es => read_object f c es end).
    rewrite Ef. rewrite enc_obj in *. rewrite expect_obj.
    replace (elts_of d) with es by (rewrite Es; destruct d; reflexivity).
    apply reads_fields; auto; [now apply wf_fields|]. now rewrite Es.
  - destruct (fits_fields T_MIXED_ARRAY d l) as (es & Ef & Ok & Es); [exact R|auto|].
    change (read_body (read_object f) (read_array f) (read_variant f) c 8 d l)
      with (match get c 4 with
            | GDone _ => err c []
            | GOk _ c1 => match fields d with None => ub c1 | Some es => read_object f c1 es end
            end).
    rewrite enc_mixed in *. rewrite expect_mixed. rewrite <- app_assoc in F. destruct Wv as [Lh Wf].
    destruct (get_ok c 4 h _ W F Lh) as (c1 & E & W1 & F1). rewrite E, Ef.
    rewrite app_length in L.
    replace (elts_of d) with es by (rewrite Es; destruct d; reflexivity).
    apply reads_fields; auto; [now apply wf_fields|now rewrite Es|lia].
  - destruct (fits_fields T_ARRAY d l) as (es & Ef & Ok & Es); [exact R|auto|].
    change (read_body (read_object f) (read_array f) (read_variant f) c 10 d l)
      with (match fields d with
            | None => ub c
            | Some es => match get c 4 with GDone _ => err c [] | GOk x c1 => read_array f c1 es (be x) end
            end).
    rewrite Ef. rewrite enc_arr in *. rewrite expect_arr. rewrite <- app_assoc in F. destruct Wv as [Lh Wf].
    destruct (get_ok c 4 (u32 (length vs)) _ W F eq_refl) as (c1 & E & W1 & F1). rewrite E, be_u32.
    rewrite app_length in L. change (length (u32 (length vs))) with 4%nat in L.
    replace (elts_of d) with es by (rewrite Es; destruct d; reflexivity).
    apply reads_list; auto; [now apply wf_vals|now rewrite Es|lia].
Qed.

Lemma reads_all : forall es vs fuel c rest more,
  Forall2 (fun e v => ok_elt e /\ typed_elt e /\ wf_val v) es vs ->
  wf_ctx c -> flat c = concat (map enc vs) ++ rest ->
  (2 * length (concat (map enc vs)) + 2 <= fuel)%nat ->
  exists c1, wf_ctx c1 /\ flat c1 = rest /\
    read fuel c (es ++ more) =
    prepend (concat (map (fun p => expected (fst p) (snd p)) (combine es vs))) (read fuel c1 more).
Proof.
  intros es vs fuel c rest more H. revert c. induction H as [|e v es vs (Oe & Te & Wv) H IH]; intros c W F L.
  - exists c. cbn in *. split; [auto|split; [auto|]]. unfold prepend. cbn. destruct (read fuel c more); reflexivity.
  - cbn [map concat combine app] in *. rewrite <- app_assoc in F. rewrite app_length in L.
    destruct (reads_one v (reads_body_all v) Wv fuel c (Some e) _ W F) as (c1 & E & W1 & F1);
      [split; auto|lia|].
    destruct (IH c1 W1 F1) as (c2 & W2 & F2 & E2); [lia|].
    exists c2. split; [auto|split; [auto|]].
    cbn [read]. rewrite E. cbn [r_status ok r_stores r_ctx]. rewrite E2.
    unfold prepend. cbn. now rewrite app_assoc.
Qed.

(* ---- writing ---- *)

Lemma append_last_flat l x : (l = [] -> x = []) -> concat (append_last l x) = concat l ++ x.
Proof.
  intros H. unfold append_last. destruct (rev l) as [|b r] eqn:E.
  - assert (l = []) by (rewrite <- (rev_involutive l), E; reflexivity). subst.
    rewrite (H eq_refl). reflexivity.
  - assert (l = rev r ++ [b]) by (rewrite <- (rev_involutive l), E; reflexivity). subst.
    rewrite !concat_app. cbn. rewrite !app_nil_r, app_assoc. reflexivity.
Qed.
Lemma append_last_nil l x : append_last l x = [] -> l = [].
Proof.
  unfold append_last. destruct (rev l) as [|b r] eqn:E; [auto|].
  intros H. destruct (rev r); discriminate.
Qed.

Lemma put_loop_spec allocs : forall bufs room p, (bufs = [] -> room = 0%nat) ->
  if Nat.leb (length p) (room + granted allocs)
  then exists c, put_loop allocs bufs room p = WOk c /\ wf_wctx c /\ wflat c = concat bufs ++ p /\
         (supply c + length p = room + granted allocs)%nat
  else put_loop allocs bufs room p = WErr.
Proof.
  induction allocs as [|a allocs IH]; intros bufs room p Hb.
  - cbn [put_loop granted]. rewrite Nat.add_0_r. destruct (Nat.leb_spec (length p) room) as [L|L]; [|reflexivity].
    eexists. split; [reflexivity|]. unfold wf_wctx, wflat, supply. cbn [w_bufs w_room w_alloc granted].
    rewrite append_last_flat, firstn_all2 by (try lia; intros E; specialize (Hb E); subst; reflexivity).
    split; [|split; [auto|lia]]. intros E. apply append_last_nil in E. specialize (Hb E). lia.
  - cbn [put_loop]. destruct (Nat.leb_spec (length p) room) as [L|L].
    + rewrite (proj2 (Nat.leb_le _ _)) by lia.
      eexists. split; [reflexivity|]. unfold wf_wctx, wflat, supply. cbn [w_bufs w_room w_alloc].
      rewrite append_last_flat, firstn_all2 by (try lia; intros E; specialize (Hb E); subst; reflexivity).
      split; [|split; [auto|lia]]. intros E. apply append_last_nil in E. specialize (Hb E). lia.
    + destruct a as [size|].
      * cbn [granted].
        specialize (IH (append_last bufs (firstn room p) ++ [[]]) size (skipn room p)
                      ltac:(intros E; destruct (append_last bufs (firstn room p)); discriminate)).
        rewrite skipn_length in IH.
        destruct (Nat.leb_spec (length p - room) (size + granted allocs)) as [K|K].
        -- rewrite (proj2 (Nat.leb_le _ _)) by lia. destruct IH as (c & E & Wc & F & S).
           exists c. split; [exact E|split; [exact Wc|split; [|lia]]].
           rewrite F, concat_app, append_last_flat by (intros E1; rewrite (Hb E1); reflexivity).
           cbn. rewrite app_nil_r, <- app_assoc, firstn_skipn. reflexivity.
        -- rewrite (proj2 (Nat.leb_gt _ _)) by lia. exact IH.
      * cbn [granted]. rewrite (proj2 (Nat.leb_gt _ _)) by lia. reflexivity.
Qed.

(* The bytes are appended when the supply lasts, and it is an error otherwise. *)
Definition writes (k : wctx -> wres) (x : list Z) : Prop := forall c, wf_wctx c ->
  if Nat.leb (length x) (supply c)
  then exists c1, k c = WOk c1 /\ wf_wctx c1 /\ wflat c1 = wflat c ++ x /\ (supply c1 + length x = supply c)%nat
  else k c = WErr.

Lemma writes_put x : writes (fun c => put c x) x.
Proof. intros c W. exact (put_loop_spec (w_alloc c) (w_bufs c) (w_room c) x W). Qed.
Lemma writes_nothing : writes WOk [].
Proof.
  intros c W. rewrite (proj2 (Nat.leb_le _ _)) by (cbn; lia). exists c. rewrite app_nil_r. cbn.
  split; [auto|split; [auto|split; [auto|lia]]].
Qed.
Lemma writes_bind k1 k2 x y : writes k1 x -> writes k2 y -> writes (fun c => wbind (k1 c) k2) (x ++ y).
Proof.
  intros H1 H2 c W. specialize (H1 c W). rewrite app_length.
  destruct (Nat.leb_spec (length x) (supply c)) as [L|L].
  - destruct H1 as (c1 & E & W1 & F & S). rewrite E. cbn [wbind]. specialize (H2 c1 W1).
    destruct (Nat.leb_spec (length y) (supply c1)) as [L2|L2].
    + rewrite (proj2 (Nat.leb_le _ _)) by lia. destruct H2 as (c2 & E2 & W2 & F2 & S2).
      exists c2. rewrite F2, F, app_assoc. split; [auto|split; [auto|split; [auto|lia]]].
    + rewrite (proj2 (Nat.leb_gt _ _)) by lia. exact H2.
  - rewrite (proj2 (Nat.leb_gt _ _)) by lia. rewrite H1. reflexivity.
Qed.
Lemma writes_ext k1 k2 x : (forall c, k1 c = k2 c) -> writes k2 x -> writes k1 x.
Proof. intros E H c W. rewrite E. apply H, W. Qed.

Section Mem.
Variable mem : nat -> list Z.

Fixpoint write_fields (c : wctx) (es : list elt) : wres :=
  match es with
  | [] => WOk c
  | e :: rest =>
      let n := Z.of_nat (length (e_name e)) mod 65536 in
      wbind (put c (be_bytes 2 n)) (fun c =>
      wbind (put c (firstn (Z.to_nat n) (e_name e))) (fun c =>
      wbind (write_one mem c e) (fun c => write_fields c rest)))
  end.
Definition write_object (c : wctx) (es : list elt) : wres :=
  wbind (write_fields c es) (fun c => wbind (put c [0; 0]) (fun c => put c [T_END])).

Lemma write_one_obj name es len c :
  write_one mem c (Elt T_OBJECT false false false name (DElts es) len) =
  wbind (put c [3]) (fun c => write_object c es).
Proof. reflexivity. Qed.
Lemma write_one_mixed name es len c :
  write_one mem c (Elt T_MIXED_ARRAY false false false name (DElts es) len) =
  wbind (put c [8]) (fun c => wbind (put c [0; 0; 0; 0]) (fun c => write_object c es)).
Proof. reflexivity. Qed.
Lemma write_list es : forall c,
  (fix go (c : wctx) (es : list elt) : wres :=
     match es with
     | [] => WOk c
     | e :: rest => wbind (write_one mem c e) (fun c => go c rest)
     end) c es = write mem c es.
Proof.
  induction es as [|e es IH]; intros c; [reflexivity|]. cbn [write].
  destruct (write_one mem c e); try reflexivity. cbn [wbind]. apply IH.
Qed.
Lemma write_one_arr name es len c :
  write_one mem c (Elt T_ARRAY false false false name (DElts es) len) =
  wbind (put c [10]) (fun c => wbind (put c (be_bytes 4 (Z.of_nat (length es)))) (fun c => write mem c es)).
Proof.
  cbn [write_one]. change (T_ARRAY mod 256) with 10. destruct (put c [10]) as [c1| |]; try reflexivity.
  cbn [wbind orb]. change (T_ARRAY =? T_ARRAY) with true.
  change (T_ARRAY =? T_NUMBER) with false. change (T_ARRAY =? T_BOOLEAN) with false.
  change (T_ARRAY =? T_STRING) with false. change (T_ARRAY =? T_NULL) with false.
  change (T_ARRAY =? T_ARRAY_NULL) with false. change (T_ARRAY =? T_MIXED_ARRAY) with false.
  change (T_ARRAY =? T_OBJECT) with false. cbn [orb]. cbn iota.
  destruct (put c1 _); try reflexivity. cbn [wbind]. apply write_list.
Qed.

Lemma bytes_u16 n : Z.of_nat n < 65536 -> be_bytes 2 (Z.of_nat n) = u16 n.
Proof.
  intros H. unfold be_bytes, u16. cbn [seq map rev app].
  change (256 ^ Z.of_nat 0) with 1. change (256 ^ Z.of_nat 1) with 256.
  rewrite Z.div_1_r. f_equal. apply Z.mod_small.
  split; [apply Z.div_pos; lia|apply Z.div_lt_upper_bound; lia].
Qed.
Lemma bytes_u32 n : Z.of_nat n < 4294967296 -> be_bytes 4 (Z.of_nat n) = u32 n.
Proof.
  intros H. unfold be_bytes, u32. cbn [seq map rev app].
  change (256 ^ Z.of_nat 0) with 1. change (256 ^ Z.of_nat 1) with 256.
  change (256 ^ Z.of_nat 2) with 65536. change (256 ^ Z.of_nat 3) with 16777216.
  rewrite Z.div_1_r. f_equal. apply Z.mod_small.
  split; [apply Z.div_pos; lia|apply Z.div_lt_upper_bound; lia].
Qed.

Lemma strlen_spec s rest : ~ In 0 s -> strlen (s ++ 0 :: rest) = Some (length s).
Proof.
  induction s as [|x s IH]; intros H; [reflexivity|]. cbn [app strlen length].
  destruct (Z.eqb_spec x 0); [subst; exfalso; apply H; left; auto|].
  rewrite IH by (intros ?; apply H; right; auto). reflexivity.
Qed.

Lemma load_ok m cap x rest : mem m = x ++ rest -> load mem (DMem m cap) (length x) = Some x.
Proof.
  intros E. unfold load. rewrite E, app_length, firstn_app_exact.
  rewrite (proj2 (Nat.leb_le _ _)) by lia. reflexivity.
Qed.

Scheme stands_min := Minimality for stands Sort Prop
  with stands_fields_min := Minimality for stands_fields Sort Prop
  with stands_list_min := Minimality for stands_list Sort Prop.
Combined Scheme stands_mut from stands_min, stands_fields_min, stands_list_min.

Lemma writes_all :
  (forall e v, stands mem e v -> writes (fun c => write_one mem c e) (enc v)) /\
  (forall es fs, stands_fields mem es fs -> writes (fun c => write_object c es) (encf fs)) /\
  (forall es vs, stands_list mem es vs -> writes (fun c => write mem c es) (encl vs)).
Proof.
  apply (stands_mut mem
    (fun e v => writes (fun c => write_one mem c e) (enc v))
    (fun es fs => writes (fun c => write_object c es) (encf fs))
    (fun es vs => writes (fun c => write mem c es) (encl vs))).
  - intros name m cap len b rest E L.
    apply (writes_ext _ (fun c => wbind (put c [0]) (fun c => put c (rev b)))).
    + intros c. cbn [write_one]. change (T_NUMBER mod 256) with 0. destruct (put c [0]); try reflexivity. cbn [wbind orb].
      change (T_NUMBER =? T_NUMBER) with true. cbn iota. unfold put_rev. rewrite <- L, (load_ok m cap b rest E). reflexivity.
    + apply (writes_bind _ _ [0] (rev b)); apply writes_put.
  - intros name m cap len x rest E.
    apply (writes_ext _ (fun c => wbind (put c [1]) (fun c => put c [x]))).
    + intros c. cbn [write_one]. change (T_BOOLEAN mod 256) with 1. destruct (put c [1]); try reflexivity. cbn [wbind orb].
      change (T_BOOLEAN =? T_NUMBER) with false. change (T_BOOLEAN =? T_BOOLEAN) with true. cbn iota. unfold put_mem.
      change 1%nat with (length [x]). rewrite (load_ok m cap [x] rest E). reflexivity.
    + apply (writes_bind _ _ [1] [x]); apply writes_put.
  - intros name m cap len s rest E L B.
    apply (writes_ext _ (fun c => wbind (put c [2]) (fun c => wbind (put c (u16 (length s))) (fun c => put c s)))).
    + intros c. cbn [write_one]. change (T_STRING mod 256) with 2. destruct (put c [2]); try reflexivity. cbn [wbind orb].
      change (T_STRING =? T_NUMBER) with false. change (T_STRING =? T_BOOLEAN) with false.
      change (T_STRING =? T_STRING) with true. cbn iota.
      rewrite Z.mod_small by lia. replace (len =? 0) with false by lia. cbn iota.
      rewrite <- L, bytes_u16 by lia. unfold put_mem. rewrite Nat2Z.id, (load_ok m cap s rest E). reflexivity.
    + apply (writes_bind _ _ [2] (u16 (length s) ++ s)); [apply writes_put|].
      apply (writes_bind (fun c => put c (u16 (length s)))); apply writes_put.
  - intros name m cap s rest E N B.
    apply (writes_ext _ (fun c => wbind (put c [2]) (fun c => wbind (put c (u16 (length s))) (fun c => put c s)))).
    + intros c. cbn [write_one]. change (T_STRING mod 256) with 2. destruct (put c [2]); try reflexivity. cbn [wbind orb].
      change (T_STRING =? T_NUMBER) with false. change (T_STRING =? T_BOOLEAN) with false.
      change (T_STRING =? T_STRING) with true. cbn iota.
      change (0 mod 65536 =? 0) with true. cbn iota.
      rewrite E, strlen_spec by auto. cbn [option_map]. rewrite Z.mod_small by lia.
      rewrite bytes_u16 by lia. unfold put_mem. rewrite Nat2Z.id, (load_ok m cap s (0 :: rest) E). reflexivity.
    + apply (writes_bind _ _ [2] (u16 (length s) ++ s)); [apply writes_put|].
      apply (writes_bind (fun c => put c (u16 (length s)))); apply writes_put.
  - intros name.
    apply (writes_ext _ (fun c => wbind (put c [2]) (fun c => wbind (put c [0; 0]) (fun c => put c [])))).
    + intros c. reflexivity.
    + apply (writes_bind _ _ [2] ([0; 0] ++ [])); [apply writes_put|].
      apply (writes_bind (fun c => put c [0; 0])); apply writes_put.
  - intros name d len. apply (writes_bind (fun c => put c [5]) WOk [5] []); [apply writes_put|apply writes_nothing].
  - intros name d len. apply (writes_bind (fun c => put c [6]) WOk [6] []); [apply writes_put|apply writes_nothing].
  - intros name es fs len _ IH. eapply writes_ext; [intros; apply write_one_obj|].
    unfold enc. rewrite enc_obj. apply (writes_bind (fun c => put c [3]) _ [3]); [apply writes_put|exact IH].
  - intros name es fs len _ IH. eapply writes_ext; [intros; apply write_one_mixed|].
    unfold enc. rewrite enc_mixed. apply (writes_bind (fun c => put c [8]) _ [8]); [apply writes_put|].
    apply (writes_bind (fun c => put c [0; 0; 0; 0])); [apply writes_put|exact IH].
  - intros name es vs len S IH B. eapply writes_ext; [intros; apply write_one_arr|].
    unfold enc. rewrite enc_arr. apply (writes_bind (fun c => put c [10]) _ [10]); [apply writes_put|].
    replace (length es) with (length vs) by (clear - S; induction S; cbn; auto).
    rewrite bytes_u32 by auto.
    apply (writes_bind (fun c => put c (u32 (length vs)))); [apply writes_put|exact IH].
  - apply (writes_bind (fun c => put c [0; 0]) (fun c => put c [9]) [0; 0] [9]); apply writes_put.
  - intros e es v fs _ IH1 Nn Ln _ IH2. cbn [encf].
    apply (writes_ext _ (fun c => wbind (put c (u16 (length (e_name e)))) (fun c => wbind (put c (e_name e)) (fun c =>
             wbind (write_one mem c e) (fun c => write_object c es))))).
    + intros c. unfold write_object. cbn [write_fields]. rewrite Z.mod_small by lia.
      rewrite bytes_u16, Nat2Z.id, firstn_all by auto.
      destruct (put c _) as [c1| |]; try reflexivity. cbn [wbind].
      destruct (put c1 _) as [c2| |]; try reflexivity. cbn [wbind].
      destruct (write_one mem c2 e); reflexivity.
    + apply (writes_bind (fun c => put c (u16 (length (e_name e))))); [apply writes_put|].
      apply (writes_bind (fun c => put c (e_name e))); [apply writes_put|].
      apply (writes_bind (fun c => write_one mem c e)); [exact IH1|exact IH2].
  - apply writes_nothing.
  - intros e es v vs _ IH1 _ IH2. cbn [encl write].
    apply (writes_bind (fun c => write_one mem c e)); [exact IH1|exact IH2].
Qed.

Lemma stands_list_vals :
  (forall e v, stands mem e v -> wf_val v) /\
  (forall es fs, stands_fields mem es fs -> Forall wf_field fs) /\
  (forall es vs, stands_list mem es vs -> Forall wf_val vs).
Proof.
  apply (stands_mut mem (fun e v => wf_val v) (fun es fs => Forall wf_field fs) (fun es vs => Forall wf_val vs));
    intros; try exact Logic.I.
  - assumption.
  - cbn. lia.
  - assumption.
  - cbn. lia.
  - now apply wf_fields.
  - split; [reflexivity|now apply wf_fields].
  - split; [assumption|now apply wf_vals].
  - constructor.
  - constructor; [unfold wf_field; cbn; auto|auto].
  - constructor.
  - constructor; auto.
Qed.

End Mem.
