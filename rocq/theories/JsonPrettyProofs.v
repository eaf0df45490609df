From Coq Require Import List ZArith Bool Lia ZifyBool ZifyNat.
From Verif Require Import JsonModel JsonSpec JsonProofs JsonPrettyModel JsonPrettySpec.
Import ListNotations.
Local Open Scope Z_scope.

(* --- the writer --- *)
Definition bytes (w : writer) : list Z := concat (w_full w) ++ w_cur w.
Definition wok (w : writer) : Prop :=
  Forall (fun b => length b = buf_size) (w_full w) /\ (length (w_cur w) <= buf_size)%nat
  /\ w_size w = Z.of_nat (length (concat (w_full w))).

Lemma w_write_ok : forall n w bs, (length bs < n)%nat \/ (length bs <= n /\ length (w_cur w) < buf_size)%nat -> wok w ->
  wok (w_write n w bs) /\ bytes (w_write n w bs) = bytes w ++ bs.
Proof.
  induction n as [|n IH]; intros w bs Hn (Hf & Hc & Hs).
  - cbn [w_write]. destruct (Nat.leb (length bs) (buf_size - length (w_cur w))) eqn:E; [apply Nat.leb_le in E|apply Nat.leb_gt in E; lia].
    unfold wok, bytes; cbn [w_full w_cur w_size]. rewrite app_length, app_assoc. repeat split; auto; lia.
  - cbn [w_write]. destruct (Nat.leb (length bs) (buf_size - length (w_cur w))) eqn:E; [apply Nat.leb_le in E|apply Nat.leb_gt in E].
    + unfold wok, bytes; cbn [w_full w_cur w_size]. rewrite app_length, app_assoc. repeat split; auto; lia.
    + set (left := (buf_size - length (w_cur w))%nat) in *.
      assert (Hl : length (firstn left bs) = left) by (apply firstn_length_le; lia).
      set (w2 := mk_writer _ _ _).
      assert (Hw2 : wok w2).
      { unfold w2, wok; cbn [w_full w_cur w_size length]. split; [|split; [lia|]].
        - apply Forall_app. split; auto. constructor; auto. rewrite app_length. lia.
        - rewrite concat_app. cbn [concat]. rewrite app_nil_r, !app_length. lia. }
      destruct (IH w2 (skipn left bs)) as [H1 H2]; auto.
      { rewrite skipn_length. right. cbn [w2 w_cur length]. unfold buf_size in *. lia. }
      split; auto. rewrite H2. unfold w2, bytes; cbn [w_full w_cur]. rewrite concat_app. cbn [concat].
      rewrite !app_nil_r, <- !app_assoc. now rewrite firstn_skipn.
Qed.
Lemma write_ok : forall w bs, wok w -> wok (write w bs) /\ bytes (write w bs) = bytes w ++ bs.
Proof. intros. apply w_write_ok; auto. Qed.
Lemma write_wok : forall w bs, wok w -> wok (write w bs).
Proof. intros. now apply write_ok. Qed.
Lemma write_bytes : forall w bs, wok w -> bytes (write w bs) = bytes w ++ bs.
Proof. intros. now apply write_ok. Qed.

(* --- stripping --- *)
Definition fin (p : place) (s : list Z) : place := fold_left next s p.
Lemma ws_not_quote : forall c, is_ws c = true -> next Out c = Out.
Proof. intros c H. unfold is_ws in H. cbn. destruct (c =? 34) eqn:E; auto. lia. Qed.
Lemma strip_app : forall a p b, strip p (a ++ b) = strip p a ++ strip (fin p a) b.
Proof.
  induction a as [|c a IH]; intros p b; cbn [app strip fin fold_left]; auto.
  destruct p; cbn [app]; try (now rewrite IH).
  destruct (is_ws c) eqn:E; cbn [app]; rewrite ?ws_not_quote by auto; now rewrite IH.
Qed.
Lemma strip_out : forall c r, is_ws c = false -> c <> 34 -> strip Out (c :: r) = (Out, c) :: strip Out r.
Proof. intros c r H1 H2. cbn. rewrite H1. destruct (c =? 34) eqn:E; auto. lia. Qed.
Lemma strip_ws : forall w r, Forall (fun c => is_ws c = true) w -> strip Out (w ++ r) = strip Out r.
Proof. induction w as [|c w IH]; intros r H; inversion H; subst; cbn; auto. rewrite H2. auto. Qed.
Lemma sep_ws : forall n, Forall (fun c => is_ws c = true) (sep n).
Proof. intros n. unfold sep. constructor; auto. apply Forall_forall. intros x H. apply repeat_spec in H. now subst. Qed.

Lemma skip_isspace_spec : forall s, exists w, Forall (fun c => is_ws c = true) w /\ s = w ++ skip_isspace s.
Proof.
  induction s as [|c r (w & Hw & E)]; cbn [skip_isspace]; [now exists []|]. destruct (isspace c) eqn:Ec.
  - exists (c :: w). split; [constructor; auto; unfold is_ws, isspace in *; lia|]. cbn. now f_equal.
  - now exists [].
Qed.
Lemma skip_len : forall s, (length (skip_isspace s) <= length s)%nat.
Proof. induction s as [|c r IH]; cbn [skip_isspace]; auto. destruct (isspace c); cbn [length]; lia. Qed.

Lemma tidy_word : forall s, tidy Word s = true -> tidy Start s = true.
Proof.
  induction s as [|c r IH]; intros H; auto. cbn [tidy] in H |- *. destruct (c =? 34) eqn:E; [discriminate|].
  cbn [negb andb] in H. destruct (word_end c) eqn:Ew; cbn [orb]; auto. destruct (punct c); auto.
Qed.
Lemma tidy_ws : forall c r, is_ws c = true -> tidy Start (c :: r) = true -> tidy Start r = true.
Proof.
  intros c r Hc H. cbn [tidy] in H. destruct (c =? 34) eqn:E; [unfold is_ws in Hc; lia|].
  destruct (word_end c || punct c); auto using tidy_word.
Qed.
Lemma tidy_app_ws : forall w r, Forall (fun c => is_ws c = true) w -> tidy Start (w ++ r) = true -> tidy Start r = true.
Proof. induction w as [|c w IH]; intros r Hw H; auto. inversion Hw; subst. apply IH; auto. eapply tidy_ws; eauto. Qed.

Lemma scan_string_spec : forall k s, (length s <= k)%nat -> forall a b, scan_string s = (a, b) ->
  s = a ++ b /\ (b = [] \/ fin Lit a = Out /\ (tidy InLit s = tidy Start b)).
Proof.
  induction k as [|k IH]; intros s Hk a b H; destruct s as [|c r]; cbn [length] in Hk; [now injection H as <- <-; auto|lia|now injection H as <- <-; auto|].
  cbn [scan_string] in H. destruct (c =? 34) eqn:E1.
  - injection H as <- <-. split; auto. right. cbn. now rewrite E1.
  - destruct (c =? 92) eqn:E2.
    + destruct r as [|c' r']; [injection H as <- <-; auto|]. cbn [length] in Hk.
      destruct (scan_string r') as [a' b'] eqn:E. injection H as <- <-.
      destruct (IH r' ltac:(lia) _ _ E) as [-> Hb]. split; auto. destruct Hb as [Hb|Hb]; auto. right.
      cbn [fin fold_left next]. rewrite E1, E2. cbn [tidy]. rewrite E1, E2. exact Hb.
    + destruct (scan_string r) as [a' b'] eqn:E. injection H as <- <-.
      destruct (IH r ltac:(lia) _ _ E) as [-> Hb]. split; auto. destruct Hb as [Hb|Hb]; auto. right.
      cbn [fin fold_left next]. rewrite E1, E2. cbn [tidy]. rewrite E1, E2. exact Hb.
Qed.
Lemma scan_token_spec : forall s a b, scan_token s = (a, b) -> tidy Word s = true ->
  s = a ++ b /\ fin Out a = Out /\ tidy Start b = true.
Proof.
  induction s as [|c r IH]; intros a b H Ht; cbn [scan_token] in H; [injection H as <- <-; auto|].
  destruct (token_end c) eqn:E.
  - injection H as <- <-. split; auto. split; auto. apply tidy_word; auto.
  - destruct (scan_token r) as [a' b'] eqn:Es. injection H as <- <-. cbn [tidy] in Ht.
    apply andb_true_iff in Ht as [Hq Ht].
    assert (Hw : word_end c = false). { unfold token_end in E. unfold word_end. cbn [existsb]. lia. }
    rewrite Hw in Ht. destruct (IH _ _ eq_refl Ht) as (-> & Hf & Hb). split; auto. split; auto.
    cbn [fin fold_left next]. destruct (c =? 34); [discriminate|]. exact Hf.
Qed.

Lemma pretty_loop_ok : forall n w pend s sl, (length s <= n)%nat -> wok w -> tidy Start s = true ->
  exists w' out, pretty_loop n w pend s sl = Some w' /\ wok w' /\ bytes w' = bytes w ++ pend ++ out
    /\ strip Out out = strip Out s /\ (s = [] -> out = []).
Proof.
  induction n as [|n IH]; intros w pend s sl Hn Hw Ht; destruct s as [|c r]; cbn [length] in Hn; try lia.
  1,2: cbn [pretty_loop]; eexists _, []; rewrite app_nil_r; (split; [reflexivity|split; [now apply write_wok|split; [now apply write_bytes|split; auto]]]).
  cbn [pretty_loop].
  destruct ((c =? 32) || (c =? 13) || (c =? 10) || (c =? 9)) eqn:E1.
  { assert (Hc : is_ws c = true) by (unfold is_ws; lia).
    destruct (IH (write w pend) [] r sl ltac:(lia) (write_wok _ _ Hw) (tidy_ws _ _ Hc Ht)) as (w' & out & -> & H1 & H2 & H3 & _).
    exists w', out. rewrite H2, write_bytes by auto. rewrite <- app_assoc. cbn [app strip]. rewrite Hc.
    (split; [reflexivity|split; [exact H1|split; [reflexivity|split; [exact H3|discriminate]]]]). }
  destruct ((c =? 91) || (c =? 123)) eqn:E2.
  { assert (Hc : is_ws c = false) by (unfold is_ws; lia). cbn zeta.
    assert (Htr : tidy Start r = true).
    { cbn [tidy] in Ht. destruct (c =? 34) eqn:E34; [lia|].
      assert (Hp : word_end c || punct c = true) by (unfold word_end, punct; cbn [existsb]; lia). now rewrite Hp in Ht. }
    destruct (skip_isspace_spec r) as (v & Hv & Er). pose proof (skip_len r) as Hl.
    destruct (skip_isspace r) as [|c' r'].
    - destruct (IH (write w (pend ++ [c])) [] [] sl ltac:(cbn; lia) (write_wok _ _ Hw) eq_refl) as (w' & out & -> & H1 & H2 & H3 & H4).
      exists w', [c]. rewrite H2, write_bytes, (H4 eq_refl), !app_nil_r by auto. (split; [reflexivity|split; [exact H1|split; [try reflexivity|split; [|discriminate]]]]).
      rewrite Er. rewrite strip_out by (auto; lia). rewrite strip_out by (auto; lia). now rewrite strip_ws.
    - rewrite Er in Htr. apply tidy_app_ws in Htr; auto. cbn [length] in Hl.
      destruct ((c' =? 125) || (c' =? 93)) eqn:E3.
      + assert (Ht' : tidy Start r' = true).
        { cbn [tidy] in Htr. destruct (c' =? 34) eqn:E34; [lia|].
          assert (Hp : word_end c' || punct c' = true) by (unfold word_end, punct; cbn [existsb]; lia). now rewrite Hp in Htr. }
        destruct (IH (write w (pend ++ [c])) [c'] r' sl ltac:(lia) (write_wok _ _ Hw) Ht') as (w' & out & -> & H1 & H2 & H3 & _).
        exists w', (c :: c' :: out). rewrite H2, write_bytes by auto. rewrite <- !app_assoc. (split; [reflexivity|split; [exact H1|split; [try reflexivity|split; [|discriminate]]]]).
        rewrite Er. assert (Hc' : is_ws c' = false) by (unfold is_ws; lia).
        rewrite !(strip_out c) by (auto; lia). rewrite strip_ws by auto. rewrite !(strip_out c') by (auto; lia). now rewrite H3.
      + match goal with |- context [write ?a (sep ?b)] => set (w1 := a); set (sl' := b) end.
        assert (Hw1 : wok w1) by now apply write_wok.
        destruct (IH (write w1 (sep sl')) [] (c' :: r') sl' ltac:(cbn [length]; lia) (write_wok _ _ Hw1) Htr) as (w' & out & -> & H1 & H2 & H3 & _).
        exists w', (c :: sep sl' ++ out). rewrite H2. rewrite write_bytes by auto. unfold w1. rewrite write_bytes by auto.
        rewrite <- !app_assoc. (split; [reflexivity|split; [exact H1|split; [try reflexivity|split; [|discriminate]]]]).
        rewrite Er. rewrite !(strip_out c) by (auto; lia). rewrite !strip_ws by auto using sep_ws. now rewrite H3. }
  destruct (c =? 44) eqn:E3.
  { assert (c = 44) as -> by lia.
    destruct (IH (write (write w (pend ++ [44])) (sep sl)) [] r sl ltac:(lia) (write_wok _ _ (write_wok _ _ Hw)) Ht) as (w' & out & -> & H1 & H2 & H3 & _).
    exists w', (44 :: sep sl ++ out). rewrite H2, write_bytes, write_bytes by auto using write_wok. rewrite <- !app_assoc.
    (split; [reflexivity|split; [exact H1|split; [try reflexivity|split; [|discriminate]]]]). rewrite !(strip_out 44) by (auto; lia). rewrite strip_ws by auto using sep_ws. now rewrite H3. }
  destruct (c =? 58) eqn:E4.
  { assert (c = 58) as -> by lia.
    destruct (IH (write (write w (pend ++ [58])) [32]) [] r sl ltac:(lia) (write_wok _ _ (write_wok _ _ Hw)) Ht) as (w' & out & -> & H1 & H2 & H3 & _).
    exists w', (58 :: [32] ++ out). rewrite H2, write_bytes, write_bytes by auto using write_wok. rewrite <- !app_assoc.
    (split; [reflexivity|split; [exact H1|split; [try reflexivity|split; [|discriminate]]]]). rewrite !(strip_out 58) by (auto; lia). rewrite strip_ws by (repeat constructor). now rewrite H3. }
  destruct ((c =? 93) || (c =? 125)) eqn:E5.
  { cbn zeta. match goal with |- context [sep ?b] => set (sl' := b) end.
    assert (Htr : tidy Start r = true).
    { cbn [tidy] in Ht. destruct (c =? 34) eqn:E34; [lia|].
      assert (Hp : word_end c || punct c = true) by (unfold word_end, punct; cbn [existsb]; lia). now rewrite Hp in Ht. }
    destruct (IH (write (write w pend) (sep sl')) [c] r sl' ltac:(lia) (write_wok _ _ (write_wok _ _ Hw)) Htr) as (w' & out & -> & H1 & H2 & H3 & _).
    exists w', (sep sl' ++ c :: out). rewrite H2, write_bytes, write_bytes by auto using write_wok. rewrite <- !app_assoc.
    (split; [reflexivity|split; [exact H1|split; [try reflexivity|split; [|discriminate]]]]). rewrite strip_ws by auto using sep_ws.
    assert (Hc : is_ws c = false) by (unfold is_ws; lia). rewrite !(strip_out c) by (auto; lia). now rewrite H3. }
  destruct (c =? 34) eqn:E6.
  { assert (c = 34) as -> by lia. destruct (scan_string r) as [a b] eqn:Es.
    destruct (scan_string_spec _ _ (le_n _) _ _ Es) as [-> Hb]. rewrite app_length in Hn. cbn [tidy Z.eqb Pos.eqb] in Ht.
    assert (Htb : tidy Start b = true) by (destruct Hb as [->|[_ Hb]]; [reflexivity|congruence]).
    destruct (IH w (pend ++ 34 :: a) b sl ltac:(lia) Hw Htb) as (w' & out & -> & H1 & H2 & H3 & H4).
    exists w', ((34 :: a) ++ out). rewrite H2, <- !app_assoc. (split; [reflexivity|split; [exact H1|split; [try reflexivity|split; [|discriminate]]]]).
    change (34 :: a ++ b) with ((34 :: a) ++ b). rewrite !strip_app. f_equal.
    destruct Hb as [->|[Hb _]]; [now rewrite (H4 eq_refl)|].
    change (fin Out (34 :: a)) with (fin Lit a). now rewrite Hb. }
  destruct (scan_token r) as [a b] eqn:Es.
  assert (Ht' : tidy Word r = true).
  { cbn [tidy] in Ht. rewrite E6 in Ht.
    assert (Hp : word_end c || punct c = false) by (unfold word_end, punct; cbn [existsb]; lia). now rewrite Hp in Ht. }
  destruct (scan_token_spec _ _ _ Es Ht') as (-> & Hf & Htb). rewrite app_length in Hn.
  destruct (IH w (pend ++ c :: a) b sl ltac:(lia) Hw Htb) as (w' & out & -> & H1 & H2 & H3 & H4).
  exists w', ((c :: a) ++ out). rewrite H2, <- !app_assoc. (split; [reflexivity|split; [exact H1|split; [try reflexivity|split; [|discriminate]]]]).
  change (c :: a ++ b) with ((c :: a) ++ b). rewrite !strip_app. f_equal.
  assert (Hfc : fin Out (c :: a) = Out). { cbn [fin fold_left next]. rewrite E6. exact Hf. }
  now rewrite Hfc.
Qed.

Lemma pretty_ok : forall json level, tidy Start json = true ->
  exists bufs size, pretty json level = Some (bufs, size)
    /\ strip Out (concat bufs) = strip Out json /\ size = Z.of_nat (length (concat bufs))
    /\ exists full cur, bufs = full ++ [cur] /\ Forall (fun b => length b = 1024%nat) full /\ (length cur <= 1024)%nat.
Proof.
  intros json level Ht. unfold pretty. cbn zeta. match goal with |- context [pretty_loop _ _ _ _ ?x] => set (sl := x) end.
  assert (Hw : wok w_init) by (unfold wok; cbn; repeat split; auto; lia).
  destruct (pretty_loop_ok _ _ [] json sl (le_n _) Hw Ht) as (w & out & -> & (H1 & H2 & H3) & Hb & Hs & _).
  cbn [app] in Hb. unfold bytes at 2 in Hb. cbn in Hb.
  assert (Hcat : concat (w_full w ++ [w_cur w]) = bytes w).
  { unfold bytes. rewrite concat_app. cbn [concat]. now rewrite app_nil_r. }
  unfold w_close. eexists _, _. split; [reflexivity|]. rewrite Hcat.
  split; [congruence|]. split.
  - unfold bytes. rewrite app_length. lia.
  - exists (w_full w), (w_cur w). auto.
Qed.

(* any text: the size, the buffers *)
Lemma pretty_size_loop : forall n w pend s sl, (length s <= n)%nat -> wok w ->
  exists w', pretty_loop n w pend s sl = Some w' /\ wok w'.
Proof.
  induction n as [|n IH]; intros w pend s sl Hn Hw; destruct s as [|c r]; cbn [length] in Hn; try lia.
  1,2: cbn [pretty_loop]; eexists; split; [reflexivity|auto using write_wok].
  cbn [pretty_loop].
  destruct ((c =? 32) || (c =? 13) || (c =? 10) || (c =? 9)); [apply IH; auto using write_wok; lia|].
  destruct ((c =? 91) || (c =? 123)).
  { cbn zeta. pose proof (skip_len r) as Hl. destruct (skip_isspace r) as [|c' r']; cbn [length] in Hl.
    - apply IH; auto using write_wok; cbn; lia.
    - destruct ((c' =? 125) || (c' =? 93)); apply IH; auto using write_wok; cbn [length]; lia. }
  destruct (c =? 44); [apply IH; auto using write_wok; lia|].
  destruct (c =? 58); [apply IH; auto using write_wok; lia|].
  destruct ((c =? 93) || (c =? 125)); [apply IH; auto using write_wok; lia|].
  destruct (c =? 34).
  - destruct (scan_string r) as [a b] eqn:Es. destruct (scan_string_spec _ _ (le_n _) _ _ Es) as [-> _].
    rewrite app_length in Hn. apply IH; auto; lia.
  - assert (Hlen : forall s a b, scan_token s = (a, b) -> (length b <= length s)%nat).
    { induction s as [|x s IHs]; intros a b H; cbn [scan_token] in H; [now injection H as <- <-|].
      destruct (token_end x); [now injection H as <- <-|]. destruct (scan_token s) as [a' b'] eqn:Es. injection H as <- <-.
      specialize (IHs _ _ eq_refl). cbn [length]. lia. }
    destruct (scan_token r) as [a b] eqn:Es. specialize (Hlen _ _ _ Es). apply IH; auto; lia.
Qed.
Lemma pretty_size : forall json level, exists bufs size, pretty json level = Some (bufs, size)
    /\ size = Z.of_nat (length (concat bufs))
    /\ exists full cur, bufs = full ++ [cur] /\ Forall (fun b => length b = 1024%nat) full /\ (length cur <= 1024)%nat.
Proof.
  intros json level. unfold pretty. cbn zeta. match goal with |- context [pretty_loop _ _ _ _ ?x] => set (sl := x) end.
  assert (Hw : wok w_init) by (unfold wok; cbn; repeat split; auto; lia).
  destruct (pretty_size_loop _ _ [] json sl (le_n _) Hw) as (w & -> & (H1 & H2 & H3)).
  unfold w_close. eexists _, _. split; [reflexivity|]. split.
  - rewrite concat_app, app_length. cbn [concat]. rewrite app_nil_r. lia.
  - exists (w_full w), (w_cur w). auto.
Qed.

Lemma literals_strip : forall s p cur, literals p cur s = literals p cur (map snd (strip p s)).
Proof.
  induction s as [|c r IH]; intros p cur; cbn [strip map]; auto. destruct p.
  - destruct (is_ws c) eqn:E; cbn [map snd].
    + rewrite <- IH. cbn [literals]. destruct (c =? 34) eqn:E34; [unfold is_ws in E; lia|].
      assert (Hcur : forall s cur cur', literals Out cur s = literals Out cur' s).
      { intros [|x s] a b; reflexivity. }
      apply Hcur.
    + cbn [literals next]. destruct (c =? 34); apply IH.
  - cbn [map snd literals next]. destruct (c =? 34); [now rewrite IH|]. apply IH.
  - cbn [map snd literals next]. apply IH.
Qed.

(* --- a document without \v and \f is tidy --- *)
(* the spot after a text, none if a literal starts in a word *)
Fixpoint walk (p : spot) (s : list Z) : option spot :=
  match s with
  | [] => Some p
  | c :: r =>
      match p with
      | InEsc => walk InLit r
      | InLit => walk (if c =? 34 then Start else if c =? 92 then InEsc else InLit) r
      | Start => walk (if c =? 34 then InLit else if word_end c || punct c then Start else Word) r
      | Word => if c =? 34 then None else walk (if word_end c then Start else Word) r
      end
  end.
Lemma walk_tidy : forall s p, tidy p s = true <-> walk p s <> None.
Proof.
  induction s as [|c r IH]; intros p; cbn [tidy walk]; [split; [discriminate|auto]|].
  destruct p; try apply IH. destruct (c =? 34); cbn [negb andb]; [split; [discriminate|congruence]|apply IH].
Qed.
Lemma walk_app : forall a p b, walk p (a ++ b) = match walk p a with Some q => walk q b | None => None end.
Proof. induction a as [|c a IH]; intros p b; cbn [app walk]; auto. destruct p; auto. destruct (c =? 34); auto. Qed.

Definition no_vf (s : list Z) : Prop := ~ In 11 s /\ ~ In 12 s.
Lemma no_vf_app : forall a b, no_vf (a ++ b) <-> no_vf a /\ no_vf b.
Proof. intros a b. unfold no_vf. rewrite !in_app_iff. tauto. Qed.
Lemma no_vf_cons : forall c b, no_vf (c :: b) <-> c <> 11 /\ c <> 12 /\ no_vf b.
Proof. intros c b. unfold no_vf. cbn [In]. intuition auto. Qed.

Lemma walk_ws : forall w p, ws w -> no_vf w -> (p = Start \/ p = Word) -> walk p w = Some p \/ walk p w = Some Start.
Proof.
  induction w as [|c w IH]; intros p Hw Hv Hp; [now left|]. inversion Hw; subst. apply no_vf_cons in Hv as (Ha & Hb & Hv).
  assert (He : word_end c = true). { unfold word_end. cbn [existsb]. unfold ws_char in H1. cbn [In] in H1. lia. }
  assert (Hq : (c =? 34) = false). { unfold ws_char in H1. cbn [In] in H1. lia. }
  destruct Hp as [-> | ->]; cbn [walk]; rewrite Hq, He; cbn [orb]; destruct (IH Start H2 Hv) as [-> | ->]; auto.
Qed.
(* white space and then something that ends a word *)
Lemma walk_ws_end : forall w c r p, ws w -> no_vf w -> (p = Start \/ p = Word) -> word_end c = true -> c <> 34 ->
  walk p (w ++ c :: r) = walk Start r.
Proof.
  intros w c r p Hw Hv Hp Hc H34. rewrite walk_app. assert (Hq : (c =? 34) = false) by lia.
  destruct (walk_ws w p Hw Hv Hp) as [-> | ->]; cbn [walk]; rewrite ?Hq, ?Hc; cbn [orb]; auto.
  destruct Hp as [-> | ->]; cbn [walk]; rewrite ?Hq, ?Hc; cbn [orb]; auto.
Qed.
Lemma walk_ws_start : forall w r, ws w -> no_vf w -> walk Start (w ++ r) = walk Start r.
Proof. intros w r Hw Hv. rewrite walk_app. destruct (walk_ws w Start Hw Hv) as [-> | ->]; auto. Qed.

Lemma walk_chars : forall s e, chars s e -> forall r, walk InLit (s ++ 34 :: r) = walk Start r.
Proof.
  induction 1 as [|c s e H0 H34 H92 H IH|c s e H0 H IH]; intros r; [reflexivity| |].
  - cbn [app walk]. replace (c =? 34) with false by lia. replace (c =? 92) with false by lia. apply IH.
  - cbn [app walk Z.eqb Pos.eqb]. apply IH.
Qed.
Lemma walk_key : forall s k h, key_of s k h -> forall r, walk InLit (s ++ 34 :: r) = walk Start r.
Proof.
  induction 1 as [|c s k h Hu H92 H IH|c s k h Hu H0 H34 H92 H IH|c s k h H0 H IH]; intros r; [reflexivity| | |].
  - cbn [app walk]. replace (c =? 34) with false by lia. replace (c =? 92) with false by lia. apply IH.
  - cbn [app walk]. replace (c =? 34) with false by lia. replace (c =? 92) with false by lia. apply IH.
  - cbn [app walk Z.eqb Pos.eqb]. apply IH.
Qed.
Definition wordy (c : Z) : Prop := c = 45 \/ c = 46 \/ 48 <= c <= 57.
Lemma walk_word : forall ds p, Forall wordy ds -> ds <> [] -> (p = Start \/ p = Word) -> walk p ds = Some Word.
Proof.
  induction ds as [|c ds IH]; intros p Hd Hne Hp; [congruence|]. inversion Hd; subst.
  assert (Hq : (c =? 34) = false) by (unfold wordy in H1; lia).
  assert (He : word_end c = false) by (unfold word_end, wordy in *; cbn [existsb]; lia).
  assert (Hu : punct c = false) by (unfold punct, wordy in *; cbn [existsb]; lia).
  destruct Hp as [-> | ->]; cbn [walk]; rewrite ?Hq, ?He, ?Hu; cbn [orb];
    (destruct ds as [|c' ds]; [reflexivity|apply IH; auto; discriminate]).
Qed.
Lemma digits_wordy : forall ds, digits ds -> Forall wordy ds.
Proof. intros ds H. eapply Forall_impl; [|exact H]. intros a Ha. unfold wordy. cbn in Ha. lia. Qed.
Lemma minus_wordy : forall n, Forall wordy (minus n).
Proof. intros [|]; repeat constructor. Qed.

Definition ends (t : list Z) : Prop := walk Start t = Some Start \/ walk Start t = Some Word.
Lemma ends_end : forall t w c r, ends t -> ws w -> no_vf w -> word_end c = true -> c <> 34 ->
  walk Start (t ++ w ++ c :: r) = walk Start r.
Proof.
  intros t w c r He Hw Hv Hc H34. rewrite walk_app. destruct He as [-> | ->]; apply walk_ws_end; auto.
Qed.

Lemma app_ne : forall (a b : list Z), b <> [] -> a ++ b <> [].
Proof. intros [|x a] b H; [exact H|discriminate]. Qed.

Ltac split_vf := repeat match goal with
  | H : no_vf (_ ++ _) |- _ => apply no_vf_app in H as [? ?]
  | H : no_vf (_ :: _) |- _ => apply no_vf_cons in H as (? & ? & ?)
  end.
Lemma walk_all :
  (forall d t v, value d t v -> no_vf t -> ends t) /\
  (forall d t v, array d t v -> no_vf t -> walk Start t = Some Start) /\
  (forall d ty t vs, items d ty t vs -> no_vf t -> walk Start t = Some Start) /\
  (forall d ty t v, element d ty t v -> no_vf t -> ends t) /\
  (forall d t v, object d t v -> no_vf t -> walk Start t = Some Start) /\
  (forall d t kvs, members d t kvs -> no_vf t -> walk Start t = Some Start) /\
  (forall d t k v, member d t k v -> no_vf t -> ends t).
Proof.
  apply json_ind; intros; split_vf.
  all: try (right; reflexivity).
  all: try (left; cbn [walk Z.eqb Pos.eqb]; rewrite (walk_chars _ _ H); reflexivity).
  all: try (right; apply walk_word; auto;
    [repeat (apply Forall_app; split); auto using minus_wordy, digits_wordy; constructor;
       [unfold wordy; auto|auto using digits_wordy]
    |apply app_ne; destruct ds; [congruence|discriminate]]).
  all: try (right; apply walk_word; auto;
    [apply Forall_app; split; auto using minus_wordy, digits_wordy|apply app_ne; auto]).
  all: try (left; auto; fail).
  - cbn [walk Z.eqb Pos.eqb word_end punct existsb orb]. rewrite walk_ws_start by auto. reflexivity.
  - cbn [walk Z.eqb Pos.eqb word_end punct existsb orb]. rewrite walk_ws_start by auto. auto.
  - rewrite ends_end by (auto; lia). reflexivity.
  - rewrite ends_end by (auto; lia). rewrite walk_ws_start by auto. auto.
  - cbn [walk Z.eqb Pos.eqb word_end punct existsb orb]. rewrite walk_ws_start by auto. reflexivity.
  - cbn [walk Z.eqb Pos.eqb word_end punct existsb orb]. rewrite walk_ws_start by auto. auto.
  - rewrite ends_end by (auto; lia). reflexivity.
  - rewrite ends_end by (auto; lia). rewrite walk_ws_start by auto. auto.
  - unfold ends. cbn [walk Z.eqb Pos.eqb]. rewrite (walk_key _ _ _ H). rewrite walk_ws_start by auto.
    cbn [walk Z.eqb Pos.eqb word_end punct existsb orb]. rewrite walk_ws_start by auto. unfold ends in *. auto.
Qed.

Lemma document_tidy : forall s v, document s v -> no_vf s -> tidy Start s = true.
Proof.
  intros s v (w1 & t & w2 & Hw1 & Hv & Hw2 & ->) Hn. split_vf. apply walk_tidy.
  rewrite walk_ws_start by auto. rewrite walk_app. destruct walk_all as [Hwv _].
  destruct (Hwv _ _ _ Hv) as [-> | ->]; auto.
  - destruct (walk_ws w2 Start) as [-> | ->]; auto; discriminate.
  - destruct (walk_ws w2 Word) as [-> | ->]; auto; discriminate.
Qed.
