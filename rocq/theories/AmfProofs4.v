(* Proofs about AMF: the memory after reading holds the values written. *)
From Coq Require Import ZArith List Bool Lia ZifyBool ZifyNat.
From Verif Require Import Lists AmfModel AmfSpec AmfProofs AmfProofs2 AmfProofs3.
Import ListNotations.
Open Scope Z_scope.

Scheme mirrors_min := Minimality for mirrors Sort Prop
  with mirrors_fields_min := Minimality for mirrors_fields Sort Prop
  with mirrors_list_min := Minimality for mirrors_list Sort Prop.
Combined Scheme mirrors_mut from mirrors_min, mirrors_fields_min, mirrors_list_min.

Lemma places_elts ty o t x n es l : places (Elt ty o t x n (DElts es) l) = all_places es.
Proof. reflexivity. Qed.
Lemma for_writing_elts ty o t x n es l :
  for_writing (Elt ty o t x n (DElts es) l) =
  Elt ty false t x n (DElts (map for_writing es)) (if ty =? T_STRING then 0 else l).
Proof. reflexivity. Qed.
Lemma for_writing_name e : e_name (for_writing e) = e_name e.
Proof. destruct e. reflexivity. Qed.

(* ---- which memory the stores touch ---- *)

Definition touches (s : list store) (i : nat) : Prop := Exists (mine i) s.

Lemma untouched i s : ~ touches s i -> forall m, memory_after i m s = m.
Proof.
  induction s as [|a s IH]; intros H m; [reflexivity|]. unfold memory_after in *. cbn [fold_left].
  rewrite not_mine_memory; [apply IH|]; intros K; apply H; [now right|now left].
Qed.
Lemma memory_app i m a b : memory_after i m (a ++ b) = memory_after i (memory_after i m a) b.
Proof. unfold memory_after. apply fold_left_app. Qed.
Lemma touches_app a b i : touches (a ++ b) i <-> touches a i \/ touches b i.
Proof. unfold touches. apply Exists_app. Qed.

(* ---- expected stores of a mirroring descriptor ---- *)

Lemma expected_own ty o name d len v :
  ty = tag v -> ty <> T_VARIANT ->
  expected (Elt ty o false false name d len) v = expect v d len.
Proof.
  intros E N. unfold expected, target. cbn [e_ty e_data e_len].
  destruct (Z.eq_dec ty T_VARIANT); [easy|].
  destruct (takes_dec _ v) as [_|K]; [reflexivity|]. exfalso. apply K. left. exact E.
Qed.

Lemma field_own es : NoDup (map e_name es) -> forall e, In e es -> field es (e_name e) = Some e.
Proof.
  induction es as [|a es IH]; intros N e I; [easy|]. cbn in N. inversion N; subst. cbn [field].
  destruct (list_eq_dec Z.eq_dec (e_name a) (e_name e)) as [E|E].
  - destruct I as [->|I]; [reflexivity|]. exfalso. apply H1. rewrite E. now apply in_map.
  - destruct I as [->|I]; [easy|]. auto.
Qed.

Fixpoint expz (es : list elt) (vs : list val) : list store :=
  match es, vs with e :: es, v :: vs => expected e v ++ expz es vs | _, _ => [] end.

Lemma expl_zip es vs : mirrors_list es vs -> expl es vs = expz es vs.
Proof. induction 1 as [|e es v vs _ _ _ IH]; [reflexivity|]. cbn. now rewrite IH. Qed.
Lemma expz_concat es : forall vs,
  expz es vs = concat (map (fun p => expected (fst p) (snd p)) (combine es vs)).
Proof. induction es as [|e es IH]; intros [|v vs]; try reflexivity. cbn. now rewrite IH. Qed.
Lemma expf_zip es fs : mirrors_fields es fs -> forall all, NoDup (map e_name all) -> incl es all ->
  expf all fs = expz es (map snd fs).
Proof.
  induction 1 as [|e es v fs _ _ _ IH]; intros all N I; [reflexivity|]. cbn.
  rewrite field_own by (auto; apply I; now left). cbn.
  rewrite (IH all N) by (intros ? ?; apply I; now right). reflexivity.
Qed.

Definition ids (e : elt) : list nat := map fst (places e).
Definition all_ids (es : list elt) : list nat := map fst (all_places es).
Lemma all_ids_cons e es : all_ids (e :: es) = ids e ++ all_ids es.
Proof. unfold all_ids, ids. cbn. apply map_app. Qed.

Lemma touches_own :
  (forall e v, mirrors e v -> forall i, touches (expected e v) i -> In i (ids e)) /\
  (forall es fs, mirrors_fields es fs -> forall i, touches (expz es (map snd fs)) i -> In i (all_ids es)) /\
  (forall es vs, mirrors_list es vs -> forall i, touches (expz es vs) i -> In i (all_ids es)).
Proof.
  apply (mirrors_mut
    (fun e v => forall i, touches (expected e v) i -> In i (ids e))
    (fun es fs => forall i, touches (expz es (map snd fs)) i -> In i (all_ids es))
    (fun es vs => forall i, touches (expz es vs) i -> In i (all_ids es))).
  - intros o name m cap len b _ i H. rewrite expected_own in H by easy. cbn in *.
    inversion H as [? ? K|? ? K]; subst; [left; exact K|inversion K].
  - intros o name m cap len b _ i H. rewrite expected_own in H by easy. cbn in *.
    inversion H as [? ? K|? ? K]; subst; [left; exact K|inversion K].
  - intros o name m cap len s _ _ i H. rewrite expected_own in H by easy. cbn in *.
    inversion H as [? ? K|? ? K]; subst; [left; exact K|].
    inversion K as [? ? K'|? ? K']; subst; [left; exact K'|inversion K'].
  - intros o name len i H. rewrite expected_own in H by easy. inversion H.
  - intros o name len i H. rewrite expected_own in H by easy. inversion H.
  - intros o name es fs len M IH N i H. rewrite expected_own in H by easy.
    rewrite expect_obj in H. cbn [elts_of] in H. rewrite (expf_zip es fs M es N) in H by apply incl_refl.
    unfold ids. rewrite places_elts. auto.
  - intros o name es fs len M IH N i H. rewrite expected_own in H by easy.
    rewrite expect_mixed in H. cbn [elts_of] in H. rewrite (expf_zip es fs M es N) in H by apply incl_refl.
    unfold ids. rewrite places_elts. auto.
  - intros o name es vs len M IH i H. rewrite expected_own in H by easy.
    rewrite expect_arr in H. cbn [elts_of] in H. rewrite (expl_zip es vs M) in H.
    unfold ids. rewrite places_elts. auto.
  - intros i H. inversion H.
  - intros e es v fs _ IH1 _ _ IH2 i H. cbn in H. rewrite all_ids_cons. apply in_or_app.
    apply touches_app in H. destruct H; auto.
  - intros i H. inversion H.
  - intros e es v fs _ IH1 _ _ IH2 i H. cbn in H. rewrite all_ids_cons. apply in_or_app.
    apply touches_app in H. destruct H; auto.
Qed.

(* ---- the memory afterwards ---- *)

Definition sized (m : nat -> list Z) (ps : list (nat * nat)) : Prop :=
  Forall (fun p => (snd p <= length (m (fst p)))%nat) ps.

Lemma poke_all m b : (length b <= length m)%nat -> exists rest, poke m 0 b = b ++ rest.
Proof. intros H. exists (skipn (length b) m). reflexivity. Qed.
Lemma poke_string m s : (length s < length m)%nat ->
  exists rest, poke (poke m 0 s) (length s) [0] = s ++ 0 :: rest.
Proof.
  intros H. unfold poke at 2. cbn [firstn app Nat.add]. unfold poke. rewrite firstn_app_exact.
  eexists. cbn [app length]. reflexivity.
Qed.

Lemma expect_str s i cap len : Z.of_nat (length s) < len ->
  expect (VStr s) (DMem i cap) len = [SMem i cap 0 s; SMem i cap (length s) [0]].
Proof. intros H. cbn [expect]. replace (Z.of_nat (length s) <? len) with true by lia. reflexivity. Qed.

Definition wf_mirror (m : nat -> list Z) (e : elt) (v : val) : Prop :=
  wf_val v -> NoDup (ids e) -> sized m (places e) ->
  forall m', (forall i, In i (ids e) -> m' i = memory_after i (m i) (expected e v)) ->
  stands m' (for_writing e) v.

Lemma sized_cons m e es : sized m (all_places (e :: es)) <-> sized m (places e) /\ sized m (all_places es).
Proof. unfold sized, all_places. cbn. apply Forall_app. Qed.

Lemma mirror_step m e es v vs m' :
  mirrors e v -> (forall i, touches (expz es vs) i -> In i (all_ids es)) ->
  NoDup (all_ids (e :: es)) ->
  (forall i, In i (all_ids (e :: es)) -> m' i = memory_after i (m i) (expected e v ++ expz es vs)) ->
  NoDup (ids e) /\ NoDup (all_ids es) /\
  (forall i, In i (ids e) -> m' i = memory_after i (m i) (expected e v)) /\
  (forall i, In i (all_ids es) -> m' i = memory_after i (m i) (expz es vs)).
Proof.
  intros M T N H. rewrite all_ids_cons in *. apply NoDup_app_iff in N. destruct N as (N1 & N2 & D).
  split; [auto|split; [auto|split]]; intros i I.
  - rewrite H by (apply in_or_app; auto). rewrite memory_app, (untouched i (expz es vs)); [reflexivity|].
    intros K. apply (D i I). auto.
  - rewrite H by (apply in_or_app; auto). rewrite memory_app, (untouched i (expected e v)); [reflexivity|].
    intros K. apply (D i); auto. apply (proj1 touches_own e v M i K).
Qed.

Lemma stands_mirror m :
  (forall e v, mirrors e v -> wf_mirror m e v) /\
  (forall es fs, mirrors_fields es fs ->
     Forall wf_field fs -> NoDup (all_ids es) -> sized m (all_places es) ->
     forall m', (forall i, In i (all_ids es) -> m' i = memory_after i (m i) (expz es (map snd fs))) ->
     stands_fields m' (map for_writing es) fs) /\
  (forall es vs, mirrors_list es vs ->
     Forall wf_val vs -> NoDup (all_ids es) -> sized m (all_places es) ->
     forall m', (forall i, In i (all_ids es) -> m' i = memory_after i (m i) (expz es vs)) ->
     stands_list m' (map for_writing es) vs).
Proof.
  apply (mirrors_mut (wf_mirror m)
    (fun es fs => Forall wf_field fs -> NoDup (all_ids es) -> sized m (all_places es) ->
     forall m', (forall i, In i (all_ids es) -> m' i = memory_after i (m i) (expz es (map snd fs))) ->
     stands_fields m' (map for_writing es) fs)
    (fun es vs => Forall wf_val vs -> NoDup (all_ids es) -> sized m (all_places es) ->
     forall m', (forall i, In i (all_ids es) -> m' i = memory_after i (m i) (expz es vs)) ->
     stands_list m' (map for_writing es) vs)).
  - intros o name i cap len b C Wv N S m' H. cbn in Wv.
    specialize (H i ltac:(now left)). rewrite expected_own in H by easy.
    inversion S as [|? ? S1 _]; subst. cbn [fst snd] in S1.
    unfold memory_after in H. cbn [expect to_mem fold_left] in H. rewrite mine_memory in H.
    destruct (poke_all (m i) b) as [rest E]; [lia|]. rewrite E in H.
    cbn [for_writing]. eapply S_num; eauto.
  - intros o name i cap len x C Wv N S m' H.
    specialize (H i ltac:(now left)). rewrite expected_own in H by easy.
    inversion S as [|? ? S1 _]; subst. cbn [fst snd] in S1.
    unfold memory_after in H. cbn [expect to_mem fold_left] in H. rewrite mine_memory in H.
    destruct (poke_all (m i) [x]) as [rest E]; [cbn; lia|]. rewrite E in H.
    cbn [for_writing]. eapply S_bool; eauto.
  - intros o name i cap len s C Z0 Wv N S m' H. cbn in Wv.
    specialize (H i ltac:(now left)). rewrite expected_own, expect_str in H by (easy || lia).
    inversion S as [|? ? S1 _]; subst. cbn [fst snd] in S1.
    unfold memory_after in H. cbn [fold_left] in H. rewrite !mine_memory in H.
    destruct (poke_string (m i) s) as [rest E]; [lia|]. rewrite E in H.
    cbn [for_writing]. change (T_STRING =? T_STRING) with true. eapply S_cstr; eauto.
  - intros o name len _ _ _ m' _. apply S_null.
  - intros o name len _ _ _ m' _. apply S_arrnull.
  - intros o name es fs len M IH Nn Wv N S m' H. rewrite for_writing_elts. apply S_obj.
    apply IH; auto; [now apply wf_fields|].
    intros i I. specialize (H i I). rewrite expected_own, expect_obj in H by easy. cbn [elts_of] in H.
    rewrite (expf_zip es fs M es Nn) in H by apply incl_refl. exact H.
  - intros o name es fs len M IH Nn Wv N S m' H. rewrite for_writing_elts. apply S_mixed.
    apply IH; auto; [apply wf_fields; apply Wv|].
    intros i I. specialize (H i I). rewrite expected_own, expect_mixed in H by easy. cbn [elts_of] in H.
    rewrite (expf_zip es fs M es Nn) in H by apply incl_refl. exact H.
  - intros o name es vs len M IH Wv N S m' H. rewrite for_writing_elts. apply S_arr; [|apply Wv].
    apply IH; auto; [apply wf_vals; apply Wv|].
    intros i I. specialize (H i I). rewrite expected_own, expect_arr in H by easy. cbn [elts_of] in H.
    rewrite (expl_zip es vs M) in H. exact H.
  - intros. apply SF_nil.
  - intros e es v fs M IH1 Z0 Ms IH2 Wf N S m' H.
    inversion Wf as [|? ? [[Wn Wl] Wv] Wr]; subst. cbn [fst snd map] in *.
    apply sized_cons in S. destruct S as [S1 S2].
    destruct (mirror_step m e es v (map snd fs) m' M) as (N1 & N2 & H1 & H2); auto.
    { apply (proj1 (proj2 touches_own)); auto. }
    rewrite <- (for_writing_name e). apply SF_cons; rewrite ?for_writing_name; auto.
  - intros. apply SL_nil.
  - intros e es v vs M IH1 Z0 Ms IH2 Wf N S m' H.
    inversion Wf as [|? ? Wv Wr]; subst. cbn [map].
    apply sized_cons in S. destruct S as [S1 S2].
    destruct (mirror_step m e es v vs m' M) as (N1 & N2 & H1 & H2); auto.
    { apply (proj2 (proj2 touches_own)); auto. }
    apply SL_cons; auto.
Qed.

(* ---- mirroring descriptors are good ones ---- *)

Lemma no_zero l : ~ In 0 l -> Forall (fun x : Z => x <> 0) l.
Proof. intros H. apply Forall_forall. intros x I ->. auto. Qed.

Lemma mirrors_good :
  (forall e v, mirrors e v -> ok_elt e /\ typed_elt e) /\
  (forall es fs, mirrors_fields es fs -> Forall ok_elt es /\ Forall typedN es) /\
  (forall es vs, mirrors_list es vs -> Forall ok_elt es /\ Forall typedN es).
Proof.
  apply (mirrors_mut (fun e v => ok_elt e /\ typed_elt e)
    (fun es fs => Forall ok_elt es /\ Forall typedN es) (fun es vs => Forall ok_elt es /\ Forall typedN es)).
  - intros. split; cbn; [auto|]. unfold T_NUMBER. split; [auto|split; [lia|auto]].
  - intros. split; cbn; [auto|]. unfold T_BOOLEAN. split; [auto|split; [lia|auto]].
  - intros. split; cbn; [lia|]. unfold T_STRING. split; [auto|split; [lia|auto]].
  - intros. split; cbn; [auto|]. unfold T_NULL. split; [auto|split; [lia|auto]].
  - intros. split; cbn; [auto|]. unfold T_ARRAY_NULL. split; [auto|split; [lia|auto]].
  - intros o name es fs len _ [A B] _. split; cbn; [now apply all_ok|].
    split; [auto|split; [unfold T_OBJECT; lia|split; [now apply all_typed|discriminate]]].
  - intros o name es fs len _ [A B] _. split; cbn; [now apply all_ok|].
    split; [auto|split; [unfold T_MIXED_ARRAY; lia|split; [now apply all_typed|discriminate]]].
  - intros o name es fs len _ [A B]. split; cbn; [now apply all_ok|].
    split; [auto|split; [unfold T_ARRAY; lia|split; [now apply all_typed|discriminate]]].
  - auto.
  - intros e es v fs _ [A B] N _ [C D]. split; constructor; auto. split; [auto|now apply no_zero].
  - auto.
  - intros e es v fs _ [A B] N _ [C D]. split; constructor; auto. split; [auto|now apply no_zero].
Qed.
