From Coq Require Import ZArith List Bool Lia Permutation.
From Verif Require Import BufQueueModel BufQueueSpec.
Import ListNotations.
Open Scope Z_scope.

Definition mem_inv (size max_free mem : Z) (q : bq) : Prop :=
  bq_alloc_size q = size /\ node_size < size /\
  bq_nbuffers q = Z.of_nat (length (held q)) /\
  bq_free_left q + Z.of_nat (length (bq_free q)) = max_free /\
  (0 <= max_free -> 0 <= bq_free_left q) /\
  match bq_mem_left q with
  | Some m => m + size * Z.of_nat (length (held q)) = mem /\ (0 <= mem -> 0 <= m)
  | None => True
  end.

Lemma held_length q :
  Z.of_nat (length (held q)) =
  Z.of_nat (length (bq_used q)) + Z.of_nat (length (bq_free q)).
Proof. unfold held. rewrite app_length. lia. Qed.

(* facts about one release *)
Lemma free_loop_inv : forall l size max_free mem q limit q' rel,
  bq_used q = l -> l <> [] ->
  mem_inv size max_free mem q ->
  bq_free_loop q limit l = (q', rel) ->
  mem_inv size max_free mem q'.
Proof.
  induction l as [|cur rest IH]; intros size max_free mem q limit q' rel Hu Hne Hinv Hl;
    [congruence|].
  cbn [bq_free_loop] in Hl.
  assert (Hset : bq_set_used q (cur :: rest) = q)
    by (rewrite <- Hu; destruct q; reflexivity).
  destruct (node_contains q cur limit) eqn:Hc.
  - rewrite Hset in Hl. injection Hl as <- <-. exact Hinv.
  - destruct rest as [|nx rest'].
    + rewrite Hset in Hl. injection Hl as <- <-. exact Hinv.
    + destruct (bq_release q cur) as [q1 rel1] eqn:Hr.
      destruct (bq_free_loop q1 limit (nx :: rest')) as [q2 rel2] eqn:Hl2.
      injection Hl as <- <-.
      assert (Hl2' : bq_free_loop (bq_set_used q1 (nx :: rest')) limit (nx :: rest')
                     = (q2, rel2)).
      { rewrite <- Hl2. clear.
        assert (G : forall l q u, bq_free_loop (bq_set_used q u) limit l
                                  = bq_free_loop q limit l).
        { clear. induction l as [|c r IHl]; intros q u; [reflexivity|].
          cbn [bq_free_loop].
          replace (node_contains (bq_set_used q u) c limit)
            with (node_contains q c limit) by reflexivity.
          destruct (node_contains q c limit); [reflexivity|].
          destruct r as [|c2 r2]; [reflexivity|].
          unfold bq_release. cbn [bq_set_used bq_free_left bq_alloc_size
            bq_mem_left bq_nbuffers bq_used bq_free].
          destruct (bq_free_left q <=? 0);
            (match goal with |- (let (_, _) := bq_free_loop ?a _ _ in _) =
                (let (_, _) := bq_free_loop ?b _ _ in _) =>
                replace a with (bq_set_used b u) by reflexivity end);
            rewrite IHl; reflexivity. }
        apply G. }
      eapply (IH size max_free mem (bq_set_used q1 (nx :: rest')));
        [reflexivity|discriminate| |exact Hl2'].
      destruct Hinv as (Ha & Hs & Hn & Hf & Hfl & Hm).
      rewrite held_length, Hu in Hn. 
      unfold bq_release in Hr.
      destruct (Z.leb_spec (bq_free_left q) 0) as [Hle|Hgt];
        injection Hr as <- <-; unfold mem_inv; rewrite ?held_length;
        cbn [bq_set_used bq_free_left bq_alloc_size bq_mem_left bq_nbuffers
             bq_used bq_free].
      * repeat split; try assumption.
        -- cbn [length] in *. lia.
        -- destruct (bq_mem_left q) as [m|]; [|exact I].
           rewrite held_length, Hu in Hm. rewrite Ha in *. unfold node_size in *. cbn [length] in *. lia.
      * repeat split; try assumption.
        -- cbn [length] in *. lia.
        -- cbn [length] in *. lia.
        -- lia.
        -- destruct (bq_mem_left q) as [m|]; [|exact I].
           rewrite held_length, Hu in Hm. rewrite Ha in *. unfold node_size in *. cbn [length] in *. lia.
Qed.

Lemma step_mem_inv size max_free mem q o q' ret rel :
  mem_inv size max_free mem q ->
  bq_step q o = BqOk q' ret rel ->
  mem_inv size max_free mem q'.
Proof.
  intros Hinv Hs. destruct o as [r|limit| |]; cbn [bq_step] in Hs.
  - destruct Hinv as (Ha & Hsz & Hn & Hf & Hfl & Hm).
    rewrite held_length in Hn.
    unfold bq_get in Hs. destruct (bq_free q) as [|n rest] eqn:Hfree.
    + destruct (bq_mem_left q) as [m|] eqn:Hml; [|discriminate].
      destruct (Z.ltb_spec m (bq_alloc_size q)) as [Hlt|Hge].
      * injection Hs as <- <- <-. unfold mem_inv. rewrite held_length, Hml, Hfree.
        rewrite held_length, Hfree in Hm. repeat split; try assumption; tauto.
      * destruct r as [a|]; injection Hs as <- <- <-; unfold mem_inv.
        -- rewrite held_length in *. rewrite Hfree in *.
           cbn [bq_used bq_free bq_free_left bq_alloc_size bq_mem_left bq_nbuffers].
           rewrite app_length, Ha in *. cbn [length] in *. repeat split; try assumption; lia.
        -- rewrite held_length, Hml, Hfree.
           rewrite held_length, Hfree in Hm. repeat split; try assumption; tauto.
    + injection Hs as <- <- <-. unfold mem_inv. rewrite held_length in *.
      rewrite Hfree in *.
      cbn [bq_used bq_free bq_free_left bq_alloc_size bq_mem_left bq_nbuffers].
      rewrite app_length. cbn [length] in *.
      repeat split; try assumption; try lia.
      destruct (bq_mem_left q) as [m|]; [|exact I]. lia.
  - unfold bq_free_upto in Hs. destruct (bq_used q) as [|u us] eqn:Hu.
    + injection Hs as <- <- <-. exact Hinv.
    + destruct (bq_free_loop q limit (u :: us)) as [q1 rel1] eqn:Hl.
      injection Hs as <- <- <-.
      eapply free_loop_inv; [exact Hu|discriminate|exact Hinv|exact Hl].
  - injection Hs as <- <- <-. destruct Hinv as (Ha & Hsz & Hn & Hf & Hfl & Hm).
    unfold mem_inv, held.
    cbn [bq_used bq_free bq_free_left bq_alloc_size bq_mem_left bq_nbuffers app length].
    repeat split; try assumption; try lia.
    destruct (bq_mem_left q) as [m|]; [|exact I]. rewrite Ha, Hn in *. unfold node_size in *. lia.
  - injection Hs as <- <- <-. destruct Hinv as (Ha & Hsz & Hn & Hf & Hfl & Hm).
    unfold mem_inv, held in *.
    cbn [bq_used bq_free bq_free_left bq_alloc_size bq_mem_left bq_nbuffers].
    repeat split; assumption.
Qed.

Lemma run_mem_inv size max_free mem q log :
  bq_run size max_free mem q log -> mem_inv size max_free mem q.
Proof.
  induction 1 as [q Hi|q log o q' ret rel Hrun IH Hans Hstep].
  - unfold bq_init in Hi. destruct (Z.leb_spec size node_size); [discriminate|].
    injection Hi as <-. unfold mem_inv, held. cbn. repeat split; try lia.
  - eapply step_mem_inv; eassumption.
Qed.

Lemma accounting size max_free mem q log :
  0 <= mem -> 0 <= max_free ->
  bq_run size max_free mem q log ->
  (forall m, bq_mem_left q = Some m ->
     m + size * Z.of_nat (length (held q)) = mem /\ 0 <= m) /\
  bq_nbuffers q = Z.of_nat (length (held q)) /\
  Z.of_nat (length (bq_free q)) <= max_free.
Proof.
  intros Hmem Hmax Hrun. pose proof (run_mem_inv _ _ _ _ _ Hrun) as H.
  destruct H as (Ha & Hs & Hn & Hf & Hfl & Hm).
  split; [|split]; [|assumption|lia].
  intros m Hml. rewrite Hml in Hm. destruct Hm; split; auto.
Qed.

Lemma get_refused q r q' rel :
  bq_get q r = BqOk q' None rel ->
  q' = q /\ rel = [] /\ bq_free q = [] /\
  (r = None \/ exists m, bq_mem_left q = Some m /\ m < bq_alloc_size q).
Proof.
  unfold bq_get. destruct (bq_free q) as [|n rest]; [|discriminate].
  destruct (bq_mem_left q) as [m|]; [|discriminate].
  destruct (Z.ltb_spec m (bq_alloc_size q)) as [Hlt|Hge].
  - intros H; injection H as <- <-. repeat split. right. exists m. split; [reflexivity|lia].
  - destruct r as [a|]; [discriminate|]. intros H; injection H as <- <-. repeat split. left; reflexivity.
Qed.

Lemma delete_returns_all size max_free mem q log q' ret rel :
  bq_run size max_free mem q log ->
  bq_mem_left q <> None ->
  bq_delete q = BqOk q' ret rel ->
  bq_mem_left q' = Some mem /\ held q' = [] /\ Permutation rel (held q) /\
  bq_nbuffers q' = 0.
Proof.
  intros Hrun Hml Hd. pose proof (run_mem_inv _ _ _ _ _ Hrun) as H.
  destruct H as (Ha & Hs & Hn & Hf & Hfl & Hm).
  unfold bq_delete in Hd. injection Hd as <- <- <-.
  cbn [bq_mem_left bq_nbuffers]. destruct (bq_mem_left q) as [m|]; [|congruence].
  destruct Hm as [Hm _]. repeat split.
  - rewrite Ha, Hn. f_equal. lia.
  - unfold held. apply Permutation_app_comm.
Qed.

(* ---- FIFO ---- *)

Lemma free_loop_drop : forall l q limit q' rel,
  bq_free_loop q limit l = (q', rel) ->
  exists k, bq_used q' = skipn k l /\ (l <> [] -> (k < length l)%nat) /\
    Permutation (firstn k l ++ bq_free q) (rel ++ bq_free q') /\
    (forall j n, (j < k)%nat -> nth_error l j = Some n ->
        node_contains q n limit = false) /\
    (forall n, nth_error l k = Some n -> (S k < length l)%nat ->
        node_contains q n limit = true) /\
    bq_alloc_size q' = bq_alloc_size q.
Proof.
  induction l as [|cur rest IH]; intros q limit q' rel Hl.
  - cbn in Hl. injection Hl as <- <-. exists O. cbn. repeat split; try tauto; try lia; auto.
  - cbn [bq_free_loop] in Hl. destruct (node_contains q cur limit) eqn:Hc.
    + injection Hl as <- <-. exists O. cbn. repeat split; auto; try lia.
      intros n Hn _. injection Hn as <-. exact Hc.
    + destruct rest as [|nx rest'].
      * injection Hl as <- <-. exists O. cbn. repeat split; auto; try lia.
      * destruct (bq_release q cur) as [q1 rel1] eqn:Hr.
        destruct (bq_free_loop q1 limit (nx :: rest')) as [q2 rel2] eqn:Hl2.
        injection Hl as <- <-.
        destruct (IH _ _ _ _ Hl2) as (k & Hk1 & Hk2 & Hk3 & Hk4 & Hk5 & Hk6).
        assert (Hsz : bq_alloc_size q1 = bq_alloc_size q /\
                      Permutation (cur :: bq_free q) (rel1 ++ bq_free q1)).
        { unfold bq_release in Hr. destruct (bq_free_left q <=? 0);
            injection Hr as <- <-; cbn; split; reflexivity. }
        destruct Hsz as [Hsz Hp].
        assert (Hnc : forall n, node_contains q1 n limit = node_contains q n limit).
        { intros n. unfold node_contains, node_end. rewrite Hsz. reflexivity. }
        exists (S k). cbn [skipn firstn length].
        assert (Hkl : (k < length (nx :: rest'))%nat) by (apply Hk2; discriminate).
        repeat split; try assumption.
        -- intros _. cbn [length] in Hkl. lia.
        -- cbn [app]. rewrite <- app_assoc.
           etransitivity; [apply Permutation_middle|].
           etransitivity; [apply Permutation_app_head; exact Hp|].
           rewrite app_assoc.
           etransitivity; [apply Permutation_app_tail; apply Permutation_app_comm|].
           rewrite <- app_assoc. apply Permutation_app_head. exact Hk3.
        -- intros j n Hj Hn. destruct j as [|j]; cbn in Hn.
           ++ injection Hn as <-. exact Hc.
           ++ rewrite <- Hnc. apply (Hk4 j); [lia|exact Hn].
        -- intros n Hn Hlt. cbn in Hn. rewrite <- Hnc. apply Hk5; [exact Hn|].
           cbn [length] in *. lia.
        -- congruence.
Qed.

Lemma all_apart_app size a b :
  all_apart size (a ++ b) <->
  all_apart size a /\ all_apart size b /\
  (forall x y, In x a -> In y b -> apart size x y).
Proof.
  induction a as [|x a IH]; cbn.
  - repeat split; try tauto; intros; tauto.
  - rewrite IH, Forall_app. rewrite !Forall_forall. split.
    + intros ((H1 & H2) & H3 & H4 & H5). repeat split; auto.
      intros u v [<-|Hu] Hv; auto.
    + intros ((H1 & H2) & H3 & H4). repeat split; auto.
Qed.

Lemma apart_sym size a b : apart size a b -> apart size b a.
Proof. unfold apart; lia. Qed.

Lemma all_apart_perm size l l' :
  Permutation l l' -> all_apart size l -> all_apart size l'.
Proof.
  induction 1 as [|x l l' Hp IH|x y l|l l' l'' H1 IH1 H2 IH2]; cbn.
  - auto.
  - intros [H1 H2]. split; [|auto]. rewrite Forall_forall in *. intros z Hz.
    apply H1. eapply Permutation_in; [symmetry; exact Hp|exact Hz].
  - intros (H1 & H2 & H3). inversion H1; subst.
    repeat split; auto. constructor; [|assumption]. apply apart_sym; assumption.
  - auto.
Qed.

Lemma step_held q o q' ret rel :
  bq_step q o = BqOk q' ret rel ->
  bq_alloc_size q' = bq_alloc_size q /\
  (Permutation (held q) (held q' ++ rel) \/
   (exists a, o = OpGet (Some a) /\ rel = [] /\ Permutation (held q') (a :: held q))).
Proof.
  intros Hs. destruct o as [r|limit| |]; cbn [bq_step] in Hs.
  - unfold bq_get in Hs. destruct (bq_free q) as [|n rest] eqn:Hfree.
    + destruct (bq_mem_left q) as [m|] eqn:Hml; [|discriminate].
      destruct (m <? bq_alloc_size q).
      * injection Hs as <- <- <-. split; [reflexivity|left]. rewrite app_nil_r. reflexivity.
      * destruct r as [a|]; injection Hs as <- <- <-.
        -- split; [reflexivity|right]. exists a. repeat split. unfold held. cbn.
           rewrite Hfree, !app_nil_r. symmetry. apply Permutation_cons_append.
        -- split; [reflexivity|left]. rewrite app_nil_r. reflexivity.
    + injection Hs as <- <- <-. split; [reflexivity|left]. unfold held. cbn.
      rewrite Hfree, app_nil_r, <- app_assoc. reflexivity.
  - unfold bq_free_upto in Hs. destruct (bq_used q) as [|u us] eqn:Hu.
    + injection Hs as <- <- <-. split; [reflexivity|left]. rewrite app_nil_r. reflexivity.
    + destruct (bq_free_loop q limit (u :: us)) as [q1 rel1] eqn:Hl.
      injection Hs as <- <- <-.
      destruct (free_loop_drop _ _ _ _ _ Hl) as (k & Hk1 & _ & Hk3 & _ & _ & Hk6).
      split; [exact Hk6|left]. unfold held. rewrite Hu, Hk1.
      rewrite <- (firstn_skipn k (u :: us)) at 1.
      rewrite <- !app_assoc.
      etransitivity; [|apply Permutation_app_head; apply Permutation_app_comm].
      etransitivity; [|apply Permutation_app_head; exact Hk3].
      rewrite !app_assoc. apply Permutation_app_tail. apply Permutation_app_comm.
  - injection Hs as <- <- <-. split; [reflexivity|left]. unfold held. cbn.
    apply Permutation_app_comm.
  - injection Hs as <- <- <-. split; [reflexivity|left]. unfold held. cbn.
    rewrite app_nil_r. reflexivity.
Qed.

Lemma run_apart size max_free mem q log :
  bq_run size max_free mem q log ->
  bq_alloc_size q = size /\ all_apart size (held q).
Proof.
  induction 1 as [q Hi|q log o q' ret rel Hrun IH Hans Hstep].
  - unfold bq_init in Hi. destruct (Z.leb_spec size node_size); [discriminate|].
    injection Hi as <-. unfold held; cbn. auto.
  - destruct IH as [Hsz Hap]. destruct (step_held _ _ _ _ _ Hstep) as [Ha Hp].
    split; [congruence|]. destruct Hp as [Hp|(a & -> & _ & Hp)].
    + apply (all_apart_perm _ _ _ Hp) in Hap. apply all_apart_app in Hap. tauto.
    + apply (all_apart_perm size (a :: held q)); [symmetry; exact Hp|].
      cbn in Hans. cbn. rewrite Hsz in Hans. split; assumption.
Qed.

Lemma contains_inside q n p :
  node_contains q n p = true <-> inside (bq_alloc_size q) n p.
Proof.
  unfold node_contains, inside, node_start, node_end, node_size.
  rewrite andb_true_iff, Z.leb_le, Z.ltb_lt. lia.
Qed.

Lemma inside_unique size l i j n m p :
  all_apart size l -> nth_error l i = Some n -> nth_error l j = Some m ->
  inside size n p -> inside size m p -> i = j.
Proof.
  revert i j. induction l as [|x l IH]; intros i j Hap Hi Hj Hin Him.
  - destruct i; discriminate.
  - cbn in Hap. destruct Hap as [Hx Hap]. rewrite Forall_forall in Hx.
    destruct i as [|i], j as [|j]; cbn in Hi, Hj.
    + reflexivity.
    + injection Hi as <-. apply nth_error_In in Hj. specialize (Hx _ Hj).
      unfold apart, inside in *. lia.
    + injection Hj as <-. apply nth_error_In in Hi. specialize (Hx _ Hi).
      unfold apart, inside in *. lia.
    + f_equal. eapply IH; eassumption.
Qed.

Lemma free_keeps_suffix size max_free mem q log limit q' ret rel k n :
  bq_run size max_free mem q log ->
  bq_free_upto q limit = BqOk q' ret rel ->
  nth_error (bq_used q) k = Some n -> inside size n limit ->
  bq_used q' = skipn k (bq_used q).
Proof.
  intros Hrun Hf Hn Hin. destruct (run_apart _ _ _ _ _ Hrun) as [Hsz Hap].
  unfold held in Hap. apply all_apart_app in Hap. destruct Hap as (Hap & _ & _).
  unfold bq_free_upto in Hf. destruct (bq_used q) as [|u us] eqn:Hu;
    [destruct k; discriminate|].
  destruct (bq_free_loop q limit (u :: us)) as [q1 rel1] eqn:Hl.
  injection Hf as <- <- <-.
  destruct (free_loop_drop _ _ _ _ _ Hl) as (k' & Hk1 & Hk2 & _ & Hk4 & Hk5 & _).
  rewrite Hk1. f_equal.
  assert (Hk2' : (k' < length (u :: us))%nat) by (apply Hk2; discriminate).
  destruct (nth_error (u :: us) k') as [n'|] eqn:Hn'.
  2:{ apply nth_error_None in Hn'. lia. }
  assert (Hkl : (k < length (u :: us))%nat).
  { apply nth_error_Some. rewrite Hn. discriminate. }
  destruct (Nat.lt_trichotomy k k') as [Hlt|[Heq|Hgt]].
  - specialize (Hk4 _ _ Hlt Hn). rewrite <- Hsz in Hin.
    apply contains_inside in Hin. congruence.
  - congruence.
  - assert (Hc : node_contains q n' limit = true) by (apply Hk5; [reflexivity|lia]).
    apply contains_inside in Hc. rewrite Hsz in Hc.
    eapply inside_unique; eassumption.
Qed.

Lemma free_unknown_keeps_last q limit q' ret rel d :
  bq_free_upto q limit = BqOk q' ret rel ->
  bq_used q <> [] ->
  (forall n, In n (bq_used q) -> ~ inside (bq_alloc_size q) n limit) ->
  bq_used q' = [last (bq_used q) d].
Proof.
  intros Hf Hne Hno. unfold bq_free_upto in Hf.
  destruct (bq_used q) as [|u us] eqn:Hu; [congruence|].
  destruct (bq_free_loop q limit (u :: us)) as [q1 rel1] eqn:Hl.
  injection Hf as <- <- <-.
  destruct (free_loop_drop _ _ _ _ _ Hl) as (k' & Hk1 & Hk2 & _ & Hk4 & Hk5 & _).
  assert (Hk2' : (k' < length (u :: us))%nat) by (apply Hk2; discriminate).
  rewrite Hk1.
  destruct (nth_error (u :: us) k') as [n'|] eqn:Hn'.
  2:{ apply nth_error_None in Hn'. lia. }
  assert (Hk : S k' = length (u :: us)).
  { destruct (Nat.lt_ge_cases (S k') (length (u :: us))) as [Hlt|Hge]; [|lia].
    specialize (Hk5 _ eq_refl Hlt). apply contains_inside in Hk5.
    exfalso. eapply Hno; [eapply nth_error_In; exact Hn'|exact Hk5]. }
  clear - Hk. revert k' Hk. generalize (u :: us) as l.
  induction l as [|x l IH]; intros k Hk; [discriminate|].
  destruct k as [|k].
  - destruct l; [reflexivity|discriminate].
  - cbn [skipn]. destruct l as [|y l]; [discriminate|].
    rewrite (IH k); [reflexivity|]. cbn [length] in *. lia.
Qed.

Lemma get_appends size max_free mem q log r q' p rel :
  bq_run size max_free mem q log ->
  answer_ok q (OpGet r) ->
  bq_get q r = BqOk q' (Some p) rel ->
  exists n, p = n + 8 /\ rel = [] /\ bq_used q' = bq_used q ++ [n] /\
    Forall (apart size n) (bq_used q) /\
    (In n (bq_free q) \/ r = Some n).
Proof.
  intros Hrun Hans Hg.
  assert (Hrun' : bq_run size max_free mem q' (log ++ rel)).
  { eapply run_step with (o := OpGet r); [exact Hrun|exact Hans|exact Hg]. }
  destruct (run_apart _ _ _ _ _ Hrun') as [_ Hap].
  assert (Happ : forall n, bq_used q' = bq_used q ++ [n] -> Forall (apart size n) (bq_used q)).
  { intros n Hn. unfold held in Hap. rewrite Hn in Hap. apply all_apart_app in Hap.
    destruct Hap as (Hap & _). apply all_apart_app in Hap. destruct Hap as (_ & _ & Hap).
    apply Forall_forall. intros x Hx. apply apart_sym. apply Hap; [exact Hx|left; reflexivity]. }
  unfold bq_get in Hg. destruct (bq_free q) as [|n rest] eqn:Hfree.
  - destruct (bq_mem_left q) as [m|] eqn:Hml; [|discriminate].
    destruct (m <? bq_alloc_size q); [discriminate|].
    destruct r as [a|]; [|discriminate].
    injection Hg as <- <- <-. exists a. repeat split; auto.
  - injection Hg as <- <- <-. exists n. repeat split; auto.
    left. left. reflexivity.
Qed.
