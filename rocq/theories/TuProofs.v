(* Proofs about the helpers of the transcoder *)
From Coq Require Import List ZArith Bool Lia Arith ZifyBool ZifyNat.
From Verif Require Import TuModel TuSpec.
Import ListNotations.
Local Open Scope Z_scope.

Lemma upd_same {A} (f : Z -> A) i x : upd f i x i = x.
Proof. unfold upd. rewrite Z.eqb_refl. reflexivity. Qed.
Lemma upd_other {A} (f : Z -> A) i x j : j <> i -> upd f i x j = f j.
Proof. unfold upd. intros H. destruct (Z.eqb_spec j i); [contradiction|reflexivity]. Qed.

Lemma mod_apart a b m : 0 < m -> a < b -> b - a < m -> a mod m <> b mod m.
Proof.
  intros Hm H1 H2 E.
  pose proof (Z.div_mod a m ltac:(lia)). pose proof (Z.div_mod b m ltac:(lia)).
  assert (b - a = m * (b / m - a / m)) by lia. assert (b / m - a / m >= 1 \/ b / m - a / m <= 0) as [?|?] by lia; nia.
Qed.

(* ---- the window ---- *)
Definition fits (f : Z * Z) : Prop := 0 <= fst f < 2 ^ 63 /\ 0 <= snd f < 2 ^ 31.

Fixpoint sorted (l : list (Z * Z)) : Prop :=
  match l with
  | [] => True
  | f :: r => (forall g, In g r -> fst f <= fst g) /\ sorted r
  end.

Lemma sorted_app a b : sorted (a ++ b) <-> sorted a /\ sorted b /\ forall f g, In f a -> In g b -> fst f <= fst g.
Proof.
  induction a as [|x a IH]; cbn; [intuition|]. rewrite IH. split.
  - intros (H1 & H2 & H3 & H4). repeat split; auto.
    + intros g Hg. apply H1. apply in_or_app. auto.
    + intros f g [<-|Hf] Hg; [apply H1; apply in_or_app; auto|auto].
  - intros ((H1 & H2) & H3 & H4). repeat split; auto.
    intros g Hg. apply in_app_or in Hg. destruct Hg; auto.
Qed.

Lemma sizes_cons f l : sizes (f :: l) = snd f + sizes l.
Proof. reflexivity. Qed.
Lemma sizes_app a b : sizes (a ++ b) = sizes a + sizes b.
Proof. induction a as [|x a IH]; [reflexivity|]. cbn [app]. rewrite !sizes_cons, IH. lia. Qed.

(* the entries of the ring from [t] on *)
Fixpoint holds (h : Z -> Z * Z) (m t : Z) (r : list (Z * Z)) : Prop :=
  match r with
  | [] => True
  | f :: r => h (t mod m) = (snd f, fst f) /\ holds h m (t + 1) r
  end.

Lemma holds_upd h m t r i x : 0 < m -> t + Z.of_nat (length r) <= i -> i - t < m ->
  holds h m t r -> holds (upd h (i mod m) x) m t r.
Proof.
  intros Hm. revert t. induction r as [|f r IH]; intros t H1 H2 H; cbn [holds length] in *; [exact Logic.I|].
  destruct H as [H3 H4]. split; [|apply IH; auto; lia].
  rewrite upd_other; [exact H3|]. apply mod_apart; lia.
Qed.

Lemma holds_app h m t a b : holds h m t (a ++ b) <-> holds h m t a /\ holds h m (t + Z.of_nat (length a)) b.
Proof.
  revert t. induction a as [|f a IH]; intros t; cbn [app holds length].
  - rewrite Z.add_0_r. tauto.
  - rewrite IH. replace (t + 1 + Z.of_nat (length a)) with (t + Z.of_nat (S (length a))) by lia. tauto.
Qed.

Definition out_of (c : Z) (f : Z * Z) : bool := negb (c - fst f <? hist_ticks).

Lemma drain_spec n : forall s r c,
  (length r <= S n)%nat -> r <> [] ->
  0 <= ss_tail s -> ss_head s = ss_tail s + Z.of_nat (length r) - 1 -> ss_head s < 2 ^ 64 - 1 ->
  holds (ss_hist s) hist_size (ss_tail s) r -> Forall fits r -> sorted r -> c = fst (last r (0, 0)) ->
  ss_total s = sizes r ->
  exists drop keep, r = drop ++ keep /\ keep <> [] /\
    ss_drain n s c = mk_ss (ss_head s) (ss_tail s + Z.of_nat (length drop)) (ss_hist s) (sizes keep) /\
    (forall f, In f drop -> c - fst f >= hist_ticks) /\ (forall f, In f keep -> c - fst f < hist_ticks).
Proof.
  induction n as [|n IH]; intros s r c Hn Hne H0 Hh Hmax Hr Hf Hs Hc Ht; (destruct r as [|f r]; [congruence|]).
  - destruct r as [|g r]; [|cbn in Hn; lia]. cbn [ss_drain]. cbn in Hh.
    destruct (Z.ltb_spec (ss_tail s) (ss_head s)) as [H|_]; [lia|].
    exists [], [f]. cbn [app length]. rewrite Z.add_0_r. split; [reflexivity|]. split; [discriminate|]. split.
    + rewrite <- Ht. destruct s. reflexivity.
    + split; [intros ? []|]. intros x [<-|[]]. subst c. cbn. unfold hist_ticks. lia.
  - cbn [ss_drain].
    assert (Hlast : forall g, In g (f :: r) -> fst g <= c).
    { intros g Hg. subst c. destruct (exists_last (l := f :: r)) as (r' & x & E); [discriminate|]. rewrite E in *.
      rewrite last_last. apply in_app_or in Hg. destruct Hg as [Hg|[<-|[]]]; [|lia].
      apply sorted_app in Hs. destruct Hs as (_ & _ & Hs). apply Hs; [exact Hg|left; reflexivity]. }
    assert (Hcr : 0 <= c < 2 ^ 63).
    { subst c. destruct (exists_last (l := f :: r)) as (r' & x & E); [discriminate|]. rewrite E in *. rewrite last_last.
      rewrite Forall_forall in Hf. apply (Hf x). apply in_or_app. right. left. reflexivity. }
    cbn [holds] in Hr. destruct Hr as [Hr1 Hr2]. inversion Hf as [|? ? Hf1 Hf2]. subst x l.
    destruct r as [|g r].
    + cbn in Hh. destruct (Z.ltb_spec (ss_tail s) (ss_head s)) as [H|_]; [lia|].
      exists [], [f]. cbn [app length]. rewrite Z.add_0_r. split; [reflexivity|]. split; [discriminate|]. split.
      * rewrite <- Ht. destruct s. reflexivity.
      * split; [intros ? []|]. intros x [<-|[]]. subst c. cbn. unfold hist_ticks. lia.
    + cbn [length] in Hh. destruct (Z.ltb_spec (ss_tail s) (ss_head s)) as [_|H]; [|lia].
      rewrite Hr1.
      assert (Hd : (c - fst f) mod 2 ^ 64 = c - fst f).
      { apply Z.mod_small. specialize (Hlast f (or_introl eq_refl)). destruct Hf1. lia. }
      rewrite Hd. destruct (Z.ltb_spec (c - fst f) hist_ticks) as [Hin|Hout].
      * exists [], (f :: g :: r). cbn [app length]. rewrite Z.add_0_r. split; [reflexivity|]. split; [discriminate|]. split.
        -- rewrite <- Ht. destruct s. reflexivity.
        -- split; [intros ? []|]. intros x Hx. destruct Hs as [Hs _].
           destruct Hx as [<-|Hx]; [exact Hin|]. specialize (Hs x Hx). lia.
      * assert (Hm : (ss_tail s + 1) mod 2 ^ 64 = ss_tail s + 1) by (apply Z.mod_small; lia). rewrite Hm.
        destruct (IH (mk_ss (ss_head s) (ss_tail s + 1) (ss_hist s) (ss_total s - snd f)) (g :: r) c) as (drop & keep & E & Hk & Ed & D1 & D2);
          cbn [ss_head ss_tail ss_hist ss_total]; try assumption; try lia.
        -- cbn [length] in *. lia.
        -- discriminate.
        -- cbn [length] in *. lia.
        -- apply Hs.
        -- rewrite Ht. rewrite sizes_cons. lia.
        -- exists (f :: drop), keep. cbn [app length]. split; [rewrite E; reflexivity|]. split; [exact Hk|]. split.
           ++ rewrite Ed. cbn [ss_head ss_tail ss_hist]. f_equal. lia.
           ++ split; [|exact D2]. intros x [<-|Hx]; [lia|auto].
Qed.

Record sinv (s : sstats) (l : list (Z * Z)) : Prop := {
  si_tail : 0 <= ss_tail s;
  si_split : exists old, l = old ++ in_window l /\ ss_tail s = Z.of_nat (length old);
  si_head : ss_head s = Z.of_nat (length l) - 1;
  si_hist : holds (ss_hist s) hist_size (ss_tail s) (in_window l);
  si_total : ss_total s = sizes (in_window l)
}.

Lemma window_ne l : l <> [] -> in_window l <> [].
Proof.
  intros H. destruct (exists_last H) as (r & x & ->). unfold in_window, last_dts. rewrite last_last.
  rewrite filter_app. cbn [filter]. rewrite Z.sub_diag. destruct (filter _ r); discriminate.
Qed.

Lemma filter_split {A} (p : A -> bool) a b : (forall x, In x a -> p x = false) -> (forall x, In x b -> p x = true) ->
  filter p (a ++ b) = b.
Proof.
  intros Ha Hb. rewrite filter_app. replace (filter p a) with (@nil A).
  - cbn. induction b as [|x b IH]; [reflexivity|]. cbn. rewrite (Hb x) by (left; reflexivity).
    f_equal. apply IH. intros; apply Hb; right; assumption.
  - induction a as [|x a IH]; [reflexivity|]. cbn. rewrite (Ha x) by (left; reflexivity). apply IH.
    intros; apply Ha; right; assumption.
Qed.

Lemma sinv_add s l f : (l = [] -> s = ss_init (ss_hist s)) -> (l <> [] -> sinv s l) ->
  Forall fits (l ++ [f]) -> sorted (l ++ [f]) -> Z.of_nat (length (in_window l)) < hist_size ->
  Z.of_nat (length l) < 2 ^ 64 - 1 ->
  sinv (ss_add s (fst f) (snd f)) (l ++ [f]).
Proof.
  intros Hnil Hinv Hfit Hsort Hwin Hlen.
  assert (P : exists old w, l = old ++ w /\ (w = in_window l) /\
     (ss_head s + 1) mod 2 ^ 64 = Z.of_nat (length l) /\
     (if (ss_head s + 1) mod 2 ^ 64 =? 0 then 0 else ss_tail s) = Z.of_nat (length old) /\
     holds (ss_hist s) hist_size (Z.of_nat (length old)) w /\ ss_total s = sizes w /\
     (forall g, In g old -> fst f - fst g >= hist_ticks)).
  { destruct l as [|g l].
    - exists [], []. rewrite Hnil by reflexivity. cbn. repeat split; auto. intros ? [].
    - destruct (Hinv ltac:(discriminate)) as [S1 (old & S2 & S3) S4 S5 S6].
      exists old, (in_window (g :: l)). split; [exact S2|]. split; [reflexivity|].
      assert (Em : (ss_head s + 1) mod 2 ^ 64 = Z.of_nat (length (g :: l))).
      { rewrite S4. replace (Z.of_nat (length (g :: l)) - 1 + 1) with (Z.of_nat (length (g :: l))) by lia. apply Z.mod_small. lia. }
      split; [exact Em|]. rewrite Em. destruct (Z.eqb_spec (Z.of_nat (length (g :: l))) 0) as [E|_]; [cbn in E; lia|].
      split; [exact S3|]. rewrite <- S3. split; [exact S5|]. split; [exact S6|].
      intros x Hx. destruct (Z_lt_le_dec (last_dts (g :: l) - fst x) hist_ticks) as [Hlt|Hge].
      + (* then x would be counted in the window too: lengths *)
        exfalso. set (P := fun f : Z * Z => last_dts (g :: l) - fst f <? 10 * 90000).
        assert (Hl : length (in_window (g :: l)) = (length (filter P old) + length (filter P (in_window (g :: l))))%nat).
        { rewrite <- app_length, <- filter_app. rewrite <- S2. reflexivity. }
        assert (Hw : filter P (in_window (g :: l)) = in_window (g :: l)).
        { apply (filter_split P [] (in_window (g :: l))); [intros ? []|]. intros y Hy. unfold in_window in Hy. apply filter_In in Hy. apply Hy. }
        rewrite Hw in Hl.
        assert (Hin : In x (filter P old)).
        { apply filter_In. split; [exact Hx|]. unfold P, hist_ticks in *. lia. }
        destruct (filter P old); [contradiction|]. cbn [length] in Hl. lia.
      + assert (last_dts (g :: l) <= fst f); [|lia].
        apply sorted_app in Hsort. destruct Hsort as (_ & _ & Hs). apply Hs; [|left; reflexivity].
        unfold last_dts. destruct (exists_last (l := g :: l)) as (r & y & E); [discriminate|]. rewrite E, last_last.
        apply in_or_app. right. left. reflexivity. }
  destruct P as (old & w & El & Ew & Eh & Et & Hh & Htot & Hold).
  unfold ss_add. rewrite Eh in *. rewrite Et.
  set (h' := upd (ss_hist s) (Z.of_nat (length l) mod hist_size) (snd f mod 2 ^ 32, fst f)).
  assert (Hf : fits f). { rewrite Forall_forall in Hfit. apply Hfit. apply in_or_app. right. left. reflexivity. }
  assert (Lw : length l = (length old + length w)%nat) by (rewrite El, app_length; reflexivity).
  assert (Hring : holds h' hist_size (Z.of_nat (length old)) (w ++ [f])).
  { apply holds_app. split.
    - apply holds_upd; [unfold hist_size; lia|lia| |exact Hh]. rewrite <- Ew in Hwin. lia.
    - cbn [holds]. split; [|exact Logic.I]. replace (Z.of_nat (length old) + Z.of_nat (length w)) with (Z.of_nat (length l)) by lia.
      unfold h'. rewrite upd_same. destruct Hf as [_ Hf]. rewrite Z.mod_small by lia. reflexivity. }
  assert (Efull : l ++ [f] = old ++ (w ++ [f])) by (rewrite El at 1; apply app_assoc_reverse).
  assert (Hs2 : sorted (w ++ [f])) by (rewrite Efull in Hsort; apply sorted_app in Hsort; apply Hsort).
  assert (Hf2 : Forall fits (w ++ [f])) by (rewrite Efull in Hfit; apply Forall_app in Hfit; apply Hfit).
  destruct (drain_spec (Z.to_nat (Z.of_nat (length l) - Z.of_nat (length old)))
      (mk_ss (Z.of_nat (length l)) (Z.of_nat (length old)) h' (ss_total s + snd f)) (w ++ [f]) (fst f))
      as (drop & keep & E & Hk & Ed & D1 & D2); cbn [ss_head ss_tail ss_hist ss_total]; auto.
  - rewrite app_length. cbn. lia.
  - destruct w; discriminate.
  - lia.
  - rewrite app_length. cbn. lia.
  - rewrite last_last. reflexivity.
  - rewrite sizes_app, Htot. cbn. lia.
  - rewrite Ed. cbn [ss_head ss_tail ss_hist].
    assert (Ew2 : in_window (l ++ [f]) = keep).
    { unfold in_window, last_dts. rewrite last_last. rewrite Efull, E, app_assoc.
      apply filter_split; intros x Hx.
      - apply in_app_or in Hx. destruct Hx as [Hx|Hx]; [specialize (Hold x Hx)|specialize (D1 x Hx)]; unfold hist_ticks in *; lia.
      - specialize (D2 x Hx). unfold hist_ticks in *; lia. }
    constructor; cbn [ss_tail ss_head ss_hist ss_total]; try rewrite Ew2.
    + lia.
    + exists (old ++ drop). split; [rewrite Efull, E, app_assoc; reflexivity|]. rewrite app_length. lia.
    + rewrite app_length. cbn. lia.
    + rewrite E in Hring. apply holds_app in Hring. apply Hring.
    + reflexivity.
Qed.

Lemma add_all_app s a b : add_all s (a ++ b) = add_all (add_all s a) b.
Proof. unfold add_all. apply fold_left_app. Qed.

Lemma sinv_all h l : Forall fits l -> sorted l -> Z.of_nat (length l) < 2 ^ 64 ->
  (forall a b, l = a ++ b -> b <> [] -> Z.of_nat (length (in_window a)) < hist_size) ->
  l <> [] -> sinv (add_all (ss_init h) l) l.
Proof.
  induction l as [|f l IH] using rev_ind; intros Hf Hs Hlen Hwin Hne; [congruence|].
  rewrite add_all_app. cbn [add_all fold_left]. fold (add_all (ss_init h) l).
  assert (Hf' : Forall fits l) by (apply Forall_app in Hf; apply Hf).
  assert (Hs' : sorted l) by (apply sorted_app in Hs; apply Hs).
  rewrite app_length in Hlen. cbn in Hlen.
  apply sinv_add; auto.
  - intros ->. reflexivity.
  - intros Hl. apply IH; auto; [lia|]. intros a b E Hb. apply (Hwin a (b ++ [f])); [rewrite E; apply app_assoc_reverse|destruct b; discriminate].
  - apply (Hwin l [f]); [reflexivity|discriminate].
  - lia.
Qed.

(* ---- the clock estimator ---- *)
Lemma skipn_tl {A} (l : list A) i : skipn (S i) l = tl (skipn i l).
Proof. revert l. induction i as [|i IH]; intros [|x l]; cbn; auto. apply IH. Qed.

Lemma lastn_snoc {A} n (l : list A) x : (0 < n)%nat ->
  lastn n (l ++ [x]) = (if Nat.ltb (length l) n then lastn n l else tl (lastn n l)) ++ [x].
Proof.
  intros Hn. unfold lastn. rewrite app_length. cbn [length].
  destruct (Nat.ltb_spec (length l) n) as [H|H].
  - replace (length l + 1 - n)%nat with O by lia. replace (length l - n)%nat with O by lia. reflexivity.
  - replace (length l + 1 - n)%nat with (S (length l - n)) by lia. rewrite skipn_app.
    replace (S (length l - n) - length l)%nat with O by lia. rewrite skipn_tl. reflexivity.
Qed.

Record cinv (c : clockest) (l : list (Z * Z)) : Prop := {
  ci_tail : ce_tail c = Z.of_nat (length l - 100);
  ci_head : ce_head c = Z.of_nat (length l) - 1;
  ci_ring : holds (ce_samples c) fifo_size (ce_tail c) (map (fun s => (snd s, fst s)) (lastn 100 l))
}.

Lemma rem_mod a : 0 <= a -> Z.rem a fifo_size = a mod fifo_size.
Proof. intros H. apply Z.rem_mod_nonneg; [exact H|]. unfold fifo_size. lia. Qed.

Lemma lastn_length {A} n (l : list A) : length (lastn n l) = (length l - (length l - n))%nat.
Proof. unfold lastn. apply skipn_length. Qed.

Lemma cinv_push c l dts clock : (l = [] -> ce_tail c = -1) -> (l <> [] -> cinv c l) ->
  cinv (ce_push c dts clock) (l ++ [(dts, clock)]).
Proof.
  intros Hnil Hinv. unfold ce_push.
  destruct l as [|x l].
  - rewrite Hnil by reflexivity. cbn [Z.eqb app]. constructor; cbn; try reflexivity.
    split; [|exact Logic.I]. reflexivity.
  - destruct (Hinv ltac:(discriminate)) as [C1 C2 C3]. remember (x :: l) as l0 eqn:El.
    assert (Hpos : (0 < length l0)%nat) by (subst; cbn; lia). clear El Hinv Hnil.
    destruct (Z.eqb_spec (ce_tail c) (-1)) as [E|_]; [lia|].
    replace (ce_head c + 1) with (Z.of_nat (length l0)) by lia. rewrite rem_mod by lia.
    assert (Et : (if Z.of_nat (length l0) - ce_tail c >=? fifo_size then ce_tail c + 1 else ce_tail c)
      = Z.of_nat (length l0 + 1 - 100)).
    { unfold fifo_size. destruct (Z.geb_spec (Z.of_nat (length l0) - ce_tail c) 100); lia. }
    rewrite Et. constructor; cbn [ce_tail ce_head ce_samples]; rewrite ?app_length; cbn [length].
    + lia.
    + lia.
    + rewrite lastn_snoc by lia. rewrite map_app. apply holds_app.
      assert (Hl : length (lastn 100 l0) = (length l0 - (length l0 - 100))%nat) by apply lastn_length.
      destruct (Nat.ltb_spec (length l0) 100) as [H|H].
      * split.
        -- replace (Z.of_nat (length l0 + 1 - 100)) with (ce_tail c) by lia. apply holds_upd; auto.
           ++ unfold fifo_size. lia.
           ++ rewrite map_length, Hl. lia.
           ++ unfold fifo_size. lia.
        -- cbn [map holds fst snd]. rewrite map_length, Hl. split; [|exact Logic.I].
           replace (Z.of_nat (length l0 + 1 - 100) + Z.of_nat (length l0 - (length l0 - 100))) with (Z.of_nat (length l0)) by lia.
           apply upd_same.
      * destruct (lastn 100 l0) as [|y r] eqn:Er; [cbn in Hl; lia|]. cbn [tl]. cbn [map holds] in C3. destruct C3 as [_ C3].
        cbn [length] in Hl. split.
        -- replace (Z.of_nat (length l0 + 1 - 100)) with (ce_tail c + 1) by lia. apply holds_upd; auto.
           ++ unfold fifo_size. lia.
           ++ rewrite map_length. lia.
           ++ unfold fifo_size. lia.
        -- cbn [map holds fst snd]. rewrite map_length. split; [|exact Logic.I].
           replace (Z.of_nat (length l0 + 1 - 100) + Z.of_nat (length r)) with (Z.of_nat (length l0)) by lia.
           apply upd_same.
Qed.

Lemma push_all_app c a b : push_all c (a ++ b) = push_all (push_all c a) b.
Proof. unfold push_all. apply fold_left_app. Qed.

Lemma cinv_all f l : l <> [] -> cinv (push_all (ce_init f) l) l.
Proof.
  induction l as [|s l IH] using rev_ind; intros Hne; [congruence|].
  rewrite push_all_app. cbn [push_all fold_left]. fold (push_all (ce_init f) l).
  destruct s as [d c]. apply cinv_push; auto. intros ->. reflexivity.
Qed.

(* the loop over the samples, newest first *)
Fixpoint scan (dts distance clock : Z) (r : list (Z * Z)) : Z :=
  match r with
  | [] => clock
  | (d, c) :: r =>
      if Z.abs (dts - d) <? distance then
        if dts - d =? 0 then dts - d + c else scan dts (Z.abs (dts - d)) (dts - d + c) r
      else scan dts distance clock r
  end.

Definition bounded (z : Z) : Prop := Z.abs z <= 2 ^ 61.

Lemma ce_loop_scan f t : forall r runner dts distance clock, 0 <= t ->
  bounded dts -> Forall (fun s => bounded (fst s) /\ bounded (snd s)) r ->
  runner = t + Z.of_nat (length r) - 1 ->
  holds f fifo_size t (map (fun s => (snd s, fst s)) (rev r)) ->
  ce_loop (length r) f runner dts distance clock = Some (scan dts distance clock r).
Proof.
  induction r as [|[d c] r IH]; intros runner dts distance clock H0 Hd Hb Er Hh; [reflexivity|].
  cbn [rev] in Hh. rewrite map_app in Hh. apply holds_app in Hh. destruct Hh as [Hh1 Hh2].
  cbn [map holds fst snd] in Hh2. destruct Hh2 as [Hh2 _]. rewrite map_length, rev_length in Hh2.
  inversion Hb as [|? ? [Hb1 Hb2] Hb3]. subst x l. cbn [fst snd] in *.
  cbn [length ce_loop scan]. cbn [length] in Er.
  replace runner with (t + Z.of_nat (length r)) by lia. rewrite rem_mod by lia. rewrite Hh2.
  unfold bounded in *.
  assert (E1 : in64 (dts - d) && in64 (Z.abs (dts - d)) = true) by (unfold in64; lia). rewrite E1.
  destruct (Z.ltb_spec (Z.abs (dts - d)) distance).
  - assert (E2 : in64 (dts - d + c) = true) by (unfold in64; lia). rewrite E2.
    destruct (dts - d =? 0); [reflexivity|]. apply IH; auto; lia.
  - apply IH; auto; lia.
Qed.

Lemma scan_spec dts : forall r distance clock,
  (scan dts distance clock r = clock /\ forall s, In s r -> distance <= Z.abs (dts - fst s)) \/
  (exists s, In s r /\ scan dts distance clock r = dts - fst s + snd s /\ Z.abs (dts - fst s) < distance /\
     forall s', In s' r -> Z.abs (dts - fst s) <= Z.abs (dts - fst s')).
Proof.
  induction r as [|[d c] r IH]; intros distance clock; cbn [scan].
  - left. split; [reflexivity|]. intros s [].
  - destruct (Z.ltb_spec (Z.abs (dts - d)) distance) as [H|H].
    + destruct (Z.eqb_spec (dts - d) 0) as [E|E].
      * right. exists (d, c). cbn [fst snd]. split; [left; reflexivity|]. split; [reflexivity|]. split; [exact H|].
        intros s' _. lia.
      * destruct (IH (Z.abs (dts - d)) (dts - d + c)) as [[S1 S2]|(s & S1 & S2 & S3 & S4)].
        -- right. exists (d, c). cbn [fst snd]. split; [left; reflexivity|]. split; [exact S1|]. split; [exact H|].
           intros s' [<-|Hs]; cbn [fst]; [lia|auto].
        -- right. exists s. split; [right; exact S1|]. split; [exact S2|]. split; [lia|].
           intros s' [<-|Hs]; cbn [fst]; [lia|auto].
    + destruct (IH distance clock) as [[S1 S2]|(s & S1 & S2 & S3 & S4)].
      * left. split; [exact S1|]. intros s [<-|Hs]; cbn [fst]; [lia|auto].
      * right. exists s. split; [right; exact S1|]. split; [exact S2|]. split; [lia|].
        intros s' [<-|Hs]; cbn [fst]; [lia|auto].
Qed.

Lemma scan_exact dts c : forall a b distance clock, 0 < distance -> (forall s, In s a -> fst s <> dts) ->
  scan dts distance clock (a ++ (dts, c) :: b) = c.
Proof.
  induction a as [|[d c'] a IH]; intros b distance clock Hd Ha; cbn [app scan].
  - rewrite Z.sub_diag. cbn [Z.abs]. destruct (Z.ltb_spec 0 distance); [|lia]. rewrite Z.eqb_refl. lia.
  - assert (d <> dts) by (apply (Ha (d, c')); left; reflexivity).
    destruct (Z.eqb_spec (dts - d) 0); [lia|].
    destruct (Z.ltb_spec (Z.abs (dts - d)) distance); apply IH; try lia; intros; apply Ha; right; assumption.
Qed.

Lemma ce_get_scan f l dts : l <> [] -> bounded dts -> Forall (fun s => bounded (fst s) /\ bounded (snd s)) l ->
  ce_get (push_all (ce_init f) l) dts = Some (scan dts (2 ^ 63 - 1) 0 (rev (lastn 100 l))).
Proof.
  intros Hne Hd Hb. destruct (cinv_all f l Hne) as [C1 C2 C3]. unfold ce_get.
  destruct (Z.eqb_spec (ce_tail (push_all (ce_init f) l)) (-1)); [lia|].
  assert (Hl : length (rev (lastn 100 l)) = (length l - (length l - 100))%nat) by (rewrite rev_length; apply lastn_length).
  assert (0 < length l)%nat by (destruct l; [congruence|cbn; lia]).
  replace (Z.to_nat (ce_head (push_all (ce_init f) l) - ce_tail (push_all (ce_init f) l) + 1)) with (length (rev (lastn 100 l))) by lia.
  apply (ce_loop_scan _ (ce_tail (push_all (ce_init f) l))); auto; try lia.
  - apply Forall_rev. unfold lastn. apply Forall_forall. intros x Hx. rewrite Forall_forall in Hb. apply Hb.
    rewrite <- (firstn_skipn (length l - 100) l). apply in_or_app. right. exact Hx.
  - rewrite rev_involutive. exact C3.
Qed.

(* ---- the droppers ---- *)
Record dinv (d : dropper) (r : nat) : Prop := {
  di_count : 0 <= dr_count d <= 3;
  di_skip : 0 <= dr_skipped d;
  di_row : r = O \/ Z.of_nat r + 1 <= dr_skipped d;
  di_max : (r <= 3)%nat
}.

Lemma drop_frame_step d r q f d' b : dinv d r -> drop_frame d q f = (d', b) -> dinv d' (if b then S r else O).
Proof.
  intros [D1 D2 D3 D4] E. unfold drop_frame in E. destruct (key_flag (fr_flags f)).
  { injection E as <- <-. constructor; cbn; lia. }
  destruct ((q - fr_dts f >? dr_decoded d) && (q - fr_dts f <? dr_nonkey d)).
  2:{ injection E as <- <-. constructor; auto; lia. }
  destruct ((dr_count d =? 0) || (dr_skipped d >? dr_count d)) eqn:Er.
  - injection E as <- <-. constructor; cbn; try lia.
    repeat match goal with |- context [if ?x then _ else _] => destruct x end; lia.
  - injection E as <- <-. apply orb_false_iff in Er. destruct Er as [E1 E2].
    constructor; cbn; try lia; destruct (Z.gtb_spec (dr_skipped d) 0); lia.
Qed.

Lemma frames_row l : forall d r, dinv d r -> forall k a, frames d l = repeat true k ++ a -> (r + k <= 3)%nat.
Proof.
  induction l as [|[q f] l IH]; intros d r D k a E; cbn [frames] in E.
  - destruct k; [|discriminate]. pose proof (di_max _ _ D). lia.
  - destruct (drop_frame d q f) as [d' b] eqn:Ed. pose proof (drop_frame_step _ _ _ _ _ _ D Ed) as D'.
    destruct k as [|k]; [pose proof (di_max _ _ D); lia|]. cbn [repeat app] in E. injection E as -> E.
    specialize (IH d' (S r) D' k a E). lia.
Qed.

Lemma frames_skip l : forall d r, dinv d r -> forall a b, frames d l = a ++ b ->
  exists d' r' l', dinv d' r' /\ b = frames d' l'.
Proof.
  induction l as [|[q f] l IH]; intros d r D a b E.
  - cbn in E. exists d, r, []. split; [exact D|]. destruct a; [|discriminate]. cbn in E. subst. reflexivity.
  - destruct a as [|x a]; [exists d, r, ((q, f) :: l); split; [exact D|symmetry; exact E]|].
    cbn [frames] in E. destruct (drop_frame d q f) as [d' b'] eqn:Ed. cbn [app] in E. injection E as -> E.
    apply (IH d' _ (drop_frame_step _ _ _ _ _ _ D Ed) a b E).
Qed.

(* ---- the vector ---- *)
Record vecinv (v : vector) (l : list Z) : Prop := {
  vv_items : exists junk, v_items v = map Some l ++ junk;
  vv_total : v_total v = length l;
  vv_cap : (1 <= v_capacity v)%nat
}.

Lemma set_nth_app {A} (a b : list A) x y : set_nth (a ++ y :: b) (length a) x = Some (a ++ x :: b).
Proof.
  unfold set_nth. rewrite app_length. cbn [length]. destruct (Nat.ltb_spec (length a) (length a + S (length b))); [|lia].
  rewrite firstn_app, firstn_all, Nat.sub_diag. cbn [firstn]. rewrite app_nil_r. f_equal. f_equal. f_equal.
  rewrite skipn_app, skipn_all2 by lia. replace (S (length a) - length a)%nat with 1%nat by lia. reflexivity.
Qed.

Lemma set_nth_map (a : list Z) b x y : set_nth (map Some a ++ y :: b) (length a) x = Some (map Some a ++ x :: b).
Proof. rewrite <- (map_length (@Some Z) a). apply set_nth_app. Qed.

Lemma vec_shift_spec : forall b a x junk,
  vec_shift (length b) (length a) (map Some a ++ x :: map Some b ++ junk)
  = Some (match b with
          | [] => map Some a ++ x :: junk
          | _ => map Some (a ++ b) ++ Some 0 :: junk
          end).
Proof.
  induction b as [|y b IH]; intros a x junk; [reflexivity|]. cbn [length vec_shift map].
  assert (En : nth_error (map Some a ++ x :: Some y :: map Some b ++ junk) (S (length a)) = Some (Some y)).
  { rewrite nth_error_app2 by (rewrite map_length; lia). rewrite map_length.
    replace (S (length a) - length a)%nat with 1%nat by lia. reflexivity. }
  cbn [app]. rewrite En.
  rewrite set_nth_map.
  replace (map Some a ++ Some y :: Some y :: map Some b ++ junk) with
    (map Some (a ++ [y]) ++ Some y :: map Some b ++ junk) by (rewrite map_app, <- app_assoc; reflexivity).
  replace (S (length a)) with (length (a ++ [y])) by (rewrite app_length; cbn; lia).
  rewrite set_nth_map.
  rewrite IH. f_equal. rewrite <- app_assoc. cbn [app].
  destruct b; [|reflexivity]. reflexivity.
Qed.

Lemma split_nth {A} (l : list A) i : (i < length l)%nat -> exists a x b, l = a ++ x :: b /\ length a = i /\
  firstn i l = a /\ skipn (S i) l = b.
Proof.
  intros H. destruct (skipn i l) as [|x b] eqn:E.
  - assert (length (skipn i l) = O) by (rewrite E; reflexivity). rewrite skipn_length in *. lia.
  - exists (firstn i l), x, b. repeat split.
    + rewrite <- E. symmetry. apply firstn_skipn.
    + apply firstn_length_le. lia.
    + rewrite skipn_tl, E. reflexivity.
Qed.

Lemma vec_resize_inv v l c ok : vecinv v l -> (length l <= c)%nat -> (1 <= c)%nat -> vecinv (vec_resize v c ok) l.
Proof.
  intros [[junk E] E2 E3] Hc H1. unfold vec_resize. destruct ok; [|constructor; eauto].
  constructor; cbn [v_items v_total]; auto.
  - rewrite E, firstn_app, map_length. rewrite firstn_all2 by (rewrite map_length; exact Hc).
    rewrite <- app_assoc. eauto.
  - unfold v_capacity. cbn [v_items]. rewrite app_length, firstn_length, repeat_length. lia.
Qed.

Lemma vec_resize_cap v c : v_capacity (vec_resize v c true) = c.
Proof. unfold vec_resize, v_capacity. cbn [v_items]. rewrite app_length, firstn_length, repeat_length. lia. Qed.

Lemma vec_add_inv v l x : vecinv v l -> exists v', vec_add v x true = Some v' /\ vecinv v' (l ++ [x]) /\
  v_capacity v' = (if Nat.eqb (v_capacity v) (length l) then v_capacity v * 2 else v_capacity v)%nat.
Proof.
  intros I. unfold vec_add.
  set (v1 := if Nat.eqb (v_capacity v) (v_total v) then _ else v).
  assert (I1 : vecinv v1 l /\ (length l < v_capacity v1)%nat /\
    v_capacity v1 = (if Nat.eqb (v_capacity v) (length l) then v_capacity v * 2 else v_capacity v)%nat).
  { subst v1. pose proof I as [[junk E] E2 E3]. rewrite E2.
    destruct (Nat.eqb_spec (v_capacity v) (length l)) as [H|H].
    - rewrite vec_resize_cap. split; [apply vec_resize_inv; auto; lia|]. lia.
    - split; [exact I|]. split; [|reflexivity]. unfold v_capacity in *. rewrite E, app_length, map_length in *. lia. }
  clearbody v1. destruct I1 as ([[junk E] E2 E3] & Hlt & Ec).
  unfold v_capacity in Hlt. rewrite E, app_length, map_length in Hlt.
  destruct junk as [|y junk]; [cbn in Hlt; lia|].
  rewrite E, E2. rewrite set_nth_map. eexists. split; [reflexivity|]. split.
  - constructor; cbn [v_items v_total].
    + exists junk. rewrite map_app, <- app_assoc. reflexivity.
    + rewrite app_length. cbn. lia.
    + unfold v_capacity. cbn [v_items]. rewrite app_length. cbn. lia.
  - rewrite <- Ec. unfold v_capacity. cbn [v_items]. rewrite E, !app_length. cbn. reflexivity.
Qed.

Lemma vec_set_inv v l i x : vecinv v l -> exists v', vec_set v i x = Some v' /\ vecinv v' (list_op l (OSet i x)) /\
  v_capacity v' = v_capacity v.
Proof.
  intros I. pose proof I as [[junk E] E2 E3]. unfold vec_set. cbn [list_op]. rewrite E2.
  destruct ((0 <=? i) && (i <? Z.of_nat (length l))) eqn:Eb; [|eauto].
  destruct (split_nth l (Z.to_nat i)) as (a & y & b & El & La & -> & ->); [lia|].
  rewrite E, El, map_app. cbn [map]. rewrite <- app_assoc. cbn [app].
  rewrite <- La, set_nth_map.
  eexists. split; [reflexivity|]. split.
  - constructor; cbn [v_items v_total].
    + exists junk. rewrite map_app. cbn [map]. rewrite <- app_assoc. reflexivity.
    + rewrite app_length. cbn. rewrite app_length in *. reflexivity.
    + unfold v_capacity. cbn [v_items]. rewrite app_length. cbn. lia.
  - unfold v_capacity. cbn [v_items]. rewrite E, El, map_app, <- app_assoc. rewrite !app_length. cbn [map app length]. rewrite !app_length. reflexivity.
Qed.

Lemma vec_delete_inv v l i ok : vecinv v l -> exists v', vec_delete v i ok = Some v' /\ vecinv v' (list_op l (ODelete i)) /\
  (ok = true -> v_capacity v' =
    (if (0 <=? i)%Z && (i <? Z.of_nat (length l))%Z && Nat.ltb 0 (length l - 1) && Nat.eqb (length l - 1) (Nat.div (v_capacity v) 4)
     then Nat.div (v_capacity v) 2 else v_capacity v)%nat).
Proof.
  intros I. pose proof I as [[junk E] E2 E3]. unfold vec_delete. cbn [list_op]. rewrite E2.
  replace ((i <? 0) || (i >=? Z.of_nat (length l))) with (negb ((0 <=? i) && (i <? Z.of_nat (length l)))) by lia.
  destruct ((0 <=? i) && (i <? Z.of_nat (length l))) eqn:Eb; cbn [negb andb]; [|exists v; auto].
  destruct (split_nth l (Z.to_nat i)) as (a & y & b & El & La & -> & ->); [lia|].
  rewrite E, El. rewrite map_app. cbn [map]. rewrite <- app_assoc. cbn [app].
  rewrite <- La, set_nth_map.
  replace (length (a ++ y :: b) - 1 - length a)%nat with (length b) by (rewrite app_length; cbn; lia).
  rewrite vec_shift_spec.
  set (l' := match b with [] => map Some a ++ Some 0 :: junk | _ => map Some (a ++ b) ++ Some 0 :: junk end).
  assert (El' : l' = map Some (a ++ b) ++ Some 0 :: junk) by (subst l'; destruct b; [rewrite app_nil_r|]; reflexivity).
  clearbody l'. subst l'.
  assert (Hcap : length (map Some (a ++ b) ++ Some 0 :: junk) = v_capacity v).
  { unfold v_capacity. rewrite E, El. rewrite !app_length, !map_length, !app_length. cbn. lia. }
  assert (Hlen : (length (a ++ y :: b) - 1 = length (a ++ b))%nat) by (rewrite !app_length; cbn; lia).
  eexists. split; [reflexivity|]. cbn [v_total]. unfold v_capacity at 1 2 4 5. cbn [v_items]. rewrite Hcap, Hlen.
  assert (Iv : vecinv (mk_vec (map Some (a ++ b) ++ Some 0 :: junk) (length (a ++ b))) (a ++ b)).
  { constructor; cbn [v_items v_total]; [eauto|reflexivity|]. unfold v_capacity. cbn [v_items]. rewrite Hcap. exact E3. }
  destruct (Nat.ltb_spec 0 (length (a ++ b))) as [H|H]; cbn [andb].
  - destruct (Nat.eqb_spec (length (a ++ b)) (v_capacity v / 4)) as [H'|H'].
    + pose proof (Nat.div_mod (v_capacity v) 4 ltac:(lia)). pose proof (Nat.div_mod (v_capacity v) 2 ltac:(lia)).
      pose proof (Nat.mod_upper_bound (v_capacity v) 4 ltac:(lia)). pose proof (Nat.mod_upper_bound (v_capacity v) 2 ltac:(lia)).
      split; [apply vec_resize_inv; auto; lia|]. intros ->. apply vec_resize_cap.
    + split; [exact Iv|]. intros _. exact Hcap.
  - split; [exact Iv|]. intros _. exact Hcap.
Qed.

Lemma vec_get_inv v l i : vecinv v l ->
  vec_get v i = Some (if (0 <=? i) && (i <? Z.of_nat (length l)) then nth (Z.to_nat i) l 0 else 0).
Proof.
  intros [[junk E] E2 E3]. unfold vec_get. rewrite E2.
  destruct ((0 <=? i) && (i <? Z.of_nat (length l))) eqn:Eb; [|reflexivity].
  rewrite E, nth_error_app1 by (rewrite map_length; lia).
  rewrite nth_error_map. rewrite (nth_error_nth' l 0) by lia. reflexivity.
Qed.
