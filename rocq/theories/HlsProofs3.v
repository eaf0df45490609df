(* SAMPLE-AES of frames of AVC. *)
From Coq Require Import ZArith List Bool Lia ZifyBool Arith.
From Verif Require Import Bytes HlsModel HlsSpec HlsProofs HlsProofs2.
Import ListNotations.
Open Scope Z_scope.

Lemma unle_app a b : unle (a ++ b) = unle a + 256 ^ Z.of_nat (length a) * unle b.
Proof.
  induction a as [|x a IH]; [cbn [app length unle Z.of_nat]; lia|]. cbn [app unle length]. rewrite IH, pow256_S. ring.
Qed.
Lemma unbe_app a b : unbe (a ++ b) = unbe a * 256 ^ Z.of_nat (length b) + unbe b.
Proof. unfold unbe. rewrite rev_app_distr, unle_app, rev_length. ring. Qed.
Lemma unbe_cons x l : unbe (x :: l) = x * 256 ^ Z.of_nat (length l) + unbe l.
Proof. change (x :: l) with ([x] ++ l). rewrite unbe_app. unfold unbe at 1. cbn [rev app unle]. f_equal. f_equal. lia. Qed.

Lemma take_all hs : forall v r, Forall is_byte hs -> 0 <= v -> v * 256 ^ Z.of_nat (length hs) + unbe hs < 2 ^ 32 ->
  take_size (length hs) v (hs ++ r) = (O, v * 256 ^ Z.of_nat (length hs) + unbe hs, r).
Proof.
  induction hs as [|x hs IH]; intros v r F V B.
  - cbn [length app take_size]. change (unbe []) with 0. change (256 ^ Z.of_nat 0) with 1. f_equal. f_equal. lia.
  - inversion F as [|? ? X F']; subst. unfold is_byte in X. cbn [length app take_size]. rewrite unbe_cons in *. cbn [length] in *. rewrite pow256_S in *.
    pose proof (unbe_bound hs F') as UB. set (p := 256 ^ Z.of_nat (length hs)) in *. assert (1 <= p) as P1 by lia.
    assert (v * 256 + x < 2 ^ 32) as VB. { assert ((v * 256 + x) * 1 <= (v * 256 + x) * p) by (apply Z.mul_le_mono_nonneg_l; lia). lia. }
    assert (u32 (v * 256) = v * 256) as -> by (unfold u32; apply Z.mod_small; lia).
    rewrite (IH (v * 256 + x) r F' ltac:(lia) ltac:(fold p; lia)). fold p. f_equal. f_equal. ring.
Qed.
Lemma take_some a : forall b v, Forall is_byte (a ++ b) -> 0 <= v -> v * 256 ^ Z.of_nat (length (a ++ b)) + unbe (a ++ b) < 2 ^ 32 ->
  take_size (length (a ++ b)) v a = (length b, v * 256 ^ Z.of_nat (length a) + unbe a, []).
Proof.
  induction a as [|x a IH]; intros b v F V B.
  - cbn [app length]. destruct (length b) eqn:Q; cbn [take_size]; change (unbe []) with 0; change (256 ^ Z.of_nat 0) with 1; f_equal; f_equal; lia.
  - cbn [app] in *. inversion F as [|? ? X F']; subst. unfold is_byte in X. cbn [length take_size]. rewrite !unbe_cons in *. cbn [length] in *. rewrite !pow256_S in *.
    pose proof (unbe_bound (a ++ b) F') as UB. set (p := 256 ^ Z.of_nat (length (a ++ b))) in *. assert (1 <= p) as P1 by lia.
    assert (v * 256 + x < 2 ^ 32) as VB. { assert ((v * 256 + x) * 1 <= (v * 256 + x) * p) by (apply Z.mul_le_mono_nonneg_l; lia). lia. }
    assert (u32 (v * 256) = v * 256) as -> by (unfold u32; apply Z.mod_small; lia).
    rewrite (IH b (v * 256 + x) F' ltac:(lia) ltac:(fold p; lia)). f_equal. f_equal. ring.
Qed.

(* a list in two ways *)
Lemma split_two (a b c d : list Z) : a ++ b = c ++ d ->
  (exists e, c = a ++ e /\ b = e ++ d) \/ (exists e, a = c ++ e /\ d = e ++ b /\ e <> []).
Proof.
  revert c. induction a as [|x a IH]; intros c H; [left; exists c; split; [reflexivity | exact H]|].
  destruct c as [|y c]; [right; exists (x :: a); split; [reflexivity | split; [symmetry; exact H | discriminate]]|].
  cbn [app] in H. injection H as -> H. destruct (IH c H) as [(e & -> & ->)|(e & -> & -> & N)]; [left | right]; exists e; repeat split. exact N.
Qed.

Section Cipher.
Variables E D : list Z -> list Z.
Hypothesis ED : cipher E D.
Variable iv : list Z.
Hypothesis IV : is_block iv.
Variable nl : nat.
Hypothesis NL : (1 <= nl <= 4)%nat.

Definition slice (u : list Z) : bool := ((Z.land (hd 0 u) 31 =? 1) || (Z.land (hd 0 u) 31 =? 5)) && (48 <? len u).
Definition emit (u : list Z) : list Z :=
  if slice u then fst (escape 0 (firstn 32 u ++ enc_all E iv (skipn 32 u))) else u.
Definition marker (first : bool) : list Z := if first then [0; 0; 0; 1] else [0; 0; 1].
Fixpoint emits (first : bool) (us : list (list Z)) : list Z :=
  match us with
  | [] => []
  | u :: us => if delimiter u then emits first us else marker first ++ emit u ++ emits false us
  end.
Definition unit_ok (u : list Z) : Prop := u <> [] /\ Forall is_byte u /\ len u < 2 ^ 31 /\ len u < 256 ^ Z.of_nat nl.

Definition todo (st : anx) (R out : list Z) : Prop :=
  match x_phase st with
  | PSize =>
      (R = [] /\ x_bytes st = nl /\ x_left st = 0 /\ out = [])
      \/ (exists hs u us, R = hs ++ u ++ stored nl us /\ length hs = x_bytes st /\ Forall is_byte hs /\ 0 <= x_left st
          /\ x_left st * 256 ^ Z.of_nat (length hs) + unbe hs = len u /\ Forall unit_ok (u :: us) /\ out = emits (x_first st) (u :: us))
  | PCopy =>
      exists L us, R = L ++ stored nl us /\ len L = x_left st /\ L <> [] /\ Forall is_byte L /\ Forall unit_ok us /\ x_first st = false
        /\ ((inv (x_nal st) L /\ out = fst (escape (n_zero (x_nal st)) (rem E (x_nal st) L)) ++ emits false us)
            \/ (n_encrypt (x_nal st) = false /\ out = L ++ emits false us))
  | PSkip =>
      exists L us, R = L ++ stored nl us /\ len L = x_left st /\ L <> [] /\ Forall unit_ok us /\ out = emits (x_first st) us
  end.

Lemma next_todo first n us : Forall unit_ok us -> todo (Anx PSize first nl 0 n) (stored nl us) (emits first us).
Proof.
  intros F. unfold todo. cbn [x_phase x_bytes x_left x_first]. destruct us as [|u us]; [left; repeat split|]. right. exists (be nl (len u)), u, us.
  inversion F as [|? ? (U1 & U2 & U3 & U4) F']; subst. cbn [stored flat_map]. fold (stored nl us). rewrite be_length.
  split; [rewrite <- app_assoc; reflexivity|]. split; [reflexivity|]. split; [unfold be; apply Forall_rev, le_bytes|]. split; [lia|]. split; [|split; [exact F | reflexivity]].
  rewrite unbe_be. rewrite Z.mod_small by (unfold len in *; lia). lia.
Qed.
Lemma rem_end st : inv st [] -> rem E st [] = [].
Proof.
  intros (_ & I2 & _ & I4 & I5 & _ & _ & [I8|(J1 & J2 & J3)]).
  - unfold rem. rewrite I8. reflexivity.
  - change (len []) with 0 in *. lia.
Qed.

Lemma body_ok n b r : Forall is_byte (b ++ r) -> inv n (b ++ r) ->
  exists o n', write_body E n b = Ok (o, n') /\ inv n' r /\ fst (escape (n_zero n) (rem E n (b ++ r))) = o ++ fst (escape (n_zero n') (rem E n' r)).
Proof.
  intros B H. unfold write_body. pose proof H as H0. destruct H0 as (I1 & I2 & _ & I4 & _). rewrite I1.
  assert (u32 (n_cur n + len b) = n_cur n + len b) as ->. { unfold u32, len in *. rewrite app_length in I4. apply Z.mod_small. lia. }
  apply (loop_ok E D ED); [apply le_n | exact B | exact H].
Qed.

Definition copying (fuel : nat) (o : list Z) (st : anx) (buf : list Z) : res (list Z * anx) :=
  let k := Z.to_nat (Z.min (x_left st) (len buf)) in
  bind (match x_phase st with
        | PCopy => write_body E (x_nal st) (firstn k buf)
        | _ => Ok ([], x_nal st)
        end) (fun r =>
    let left := x_left st - Z.of_nat k in
    let st := if left <=? 0 then Anx PSize (x_first st) nl 0 (snd r)
              else Anx (x_phase st) (x_first st) (x_bytes st) left (snd r) in
    bind (anx_loop E iv nl fuel st (skipn k buf)) (fun s => Ok (o ++ fst r ++ fst s, snd s))).

Definition good (fuel : nat) : Prop := forall st b R out,
  (length b + (match x_phase st with PSize => if (x_bytes st =? 0)%nat then 1 else 0 | _ => 0 end) <= fuel)%nat -> todo st (b ++ R) out ->
  exists o out' st', anx_loop E iv nl fuel st b = Ok (o, st') /\ out = o ++ out' /\ todo st' R out'.

Lemma copy_good fuel : good fuel -> forall pre st b R out, b <> [] -> (length b <= S fuel)%nat -> x_phase st <> PSize -> todo st (b ++ R) out ->
  exists o out' st', copying fuel pre st b = Ok (pre ++ o, st') /\ out = o ++ out' /\ todo st' R out'.
Proof.
  intros G pre st b R out NB LF NP T.
  assert (exists L us, b ++ R = L ++ stored nl us /\ len L = x_left st /\ L <> [] /\ Forall unit_ok us) as (L & us & SP & LL & NL' & FU).
  { unfold todo in T. destruct (x_phase st); [congruence | |]; destruct T as (L & us & T1 & T2 & T3 & T); exists L, us; (split; [exact T1|]); (split; [exact T2|]); (split; [exact T3|]); apply T. }
  set (k := Z.to_nat (Z.min (x_left st) (len b))).
  assert (0 < len b) as Lb by (unfold len; destruct b; [congruence | cbn [length]; lia]).
  assert (0 < len L) as L0 by (unfold len; destruct L; [congruence | cbn [length]; lia]).
  assert (0 < Z.of_nat k <= len b) as Hk by (unfold k; lia). assert (k <= length b)%nat as Hk' by (unfold len in *; lia).
  (* what is left after this write *)
  assert (exists L', L = firstn k b ++ L' /\ skipn k b ++ R = L' ++ stored nl us /\ len L' = x_left st - Z.of_nat k) as (L' & EL & ER & EN).
  { destruct (split_two _ _ _ _ SP) as [(e & -> & ->)|(e & -> & EE & NE)].
    - exists e. unfold len in *. rewrite app_length in LL. assert (k = length b) as -> by (unfold k, len; lia). rewrite firstn_all, skipn_all. split; [reflexivity|]. split; [reflexivity|]. lia.
    - exists []. unfold len in *. rewrite app_length in *. assert (k = length L) as -> by (unfold k, len; rewrite app_length; lia). rewrite firstn_le_app, skipn_le_app by lia. rewrite firstn_all, skipn_all, app_nil_r. split; [reflexivity|]. split; [symmetry; exact EE|]. cbn [length]. lia. }
  assert (length (skipn k b) <= fuel)%nat as LS by (rewrite skipn_length; lia).
  (* how it goes on *)
  assert (forall n o1 out1, out = o1 ++ out1 ->
    todo (if x_left st - Z.of_nat k <=? 0 then Anx PSize (x_first st) nl 0 n else Anx (x_phase st) (x_first st) (x_bytes st) (x_left st - Z.of_nat k) n) (skipn k b ++ R) out1 ->
    exists o out' st', bind (anx_loop E iv nl fuel (if x_left st - Z.of_nat k <=? 0 then Anx PSize (x_first st) nl 0 n else Anx (x_phase st) (x_first st) (x_bytes st) (x_left st - Z.of_nat k) n) (skipn k b))
        (fun s => Ok (pre ++ o1 ++ fst s, snd s)) = Ok (pre ++ o, st') /\ out = o ++ out' /\ todo st' R out') as GO.
  { intros n o1 out1 EO TD. set (st1 := if x_left st - Z.of_nat k <=? 0 then _ else _) in *.
    destruct (G st1 (skipn k b) R out1) as (o & out' & st' & W & EQ & TD'); [| exact TD |].
    - unfold st1. destruct (x_left st - Z.of_nat k <=? 0); cbn [x_phase x_bytes]; [destruct nl; [lia | cbn [Nat.eqb]; lia]|]. destruct (x_phase st); [congruence | lia | lia].
    - rewrite W. cbn [bind fst snd]. exists (o1 ++ o), out', st'. split; [reflexivity|]. split; [rewrite EO, EQ, app_assoc; reflexivity | exact TD']. }
  assert (x_left st - Z.of_nat k <= 0 -> L' = []) as LE by (intros Q; unfold len in EN; destruct L'; [reflexivity | cbn [length] in EN; lia]).
  assert (0 < x_left st - Z.of_nat k -> L' <> []) as LN by (intros Q ->; change (len []) with 0 in EN; lia).
  unfold copying. fold k. unfold todo in T. destruct (x_phase st) eqn:PH; [congruence| |].
  - (* copied *)
    destruct T as (L2 & us2 & T1 & T2 & T3 & TB & T4 & T5 & T6).
    assert (L2 = L /\ stored nl us2 = stored nl us) as [-> SU].
    { rewrite SP in T1. assert (length L = length L2) as LQ by (unfold len in *; lia). clear - T1 LQ. revert L2 T1 LQ. induction L as [|x L IH]; intros [|y L2] T1 LQ; try discriminate LQ; [split; [reflexivity | symmetry; exact T1]|].
      cbn [app] in T1. injection T1 as -> T1. destruct (IH L2 T1 ltac:(injection LQ as LQ; exact LQ)) as [-> ->]. split; reflexivity. }
    rewrite <- SU in *. clear SU us FU. rename us2 into us. rename T4 into FU.
    assert (Forall is_byte L') as BL' by (rewrite EL in TB; apply Forall_app in TB; apply TB).
    destruct T6 as [[INV EO]|[NE EO]].
    + destruct (body_ok (x_nal st) (firstn k b) L' ltac:(rewrite <- EL; exact TB) ltac:(rewrite <- EL; exact INV)) as (o & n' & W & INV' & EQ).
      rewrite W. cbn [bind fst snd]. rewrite <- EL in EQ. rewrite EQ in EO. rewrite <- app_assoc in EO.
      apply (GO n' o (fst (escape (n_zero n') (rem E n' L')) ++ emits false us) EO).
      destruct (x_left st - Z.of_nat k <=? 0) eqn:Q.
      * rewrite (LE ltac:(lia)) in *. rewrite rem_end by exact INV'. rewrite ER. cbn [escape fst app]. rewrite T5. apply next_todo. exact FU.
      * unfold todo. cbn [x_phase x_left x_first x_nal]. exists L', us. split; [exact ER|]. split; [exact EN|]. split; [apply LN; lia|]. split; [exact BL'|]. split; [exact FU|]. split; [exact T5|]. left. split; [exact INV' | reflexivity].
    + unfold write_body. rewrite NE. cbn [bind fst snd].
      rewrite EL, <- app_assoc in EO. apply (GO (x_nal st) (firstn k b) (L' ++ emits false us) EO).
      destruct (x_left st - Z.of_nat k <=? 0) eqn:Q.
      * rewrite (LE ltac:(lia)) in *. rewrite ER. cbn [app]. rewrite T5. apply next_todo. exact FU.
      * unfold todo. cbn [x_phase x_left x_first x_nal]. exists L', us. split; [exact ER|]. split; [exact EN|]. split; [apply LN; lia|]. split; [exact BL'|]. split; [exact FU|]. split; [exact T5|]. right. split; [exact NE | reflexivity].
  - (* skipped *)
    destruct T as (L2 & us2 & T1 & T2 & T3 & T4 & T5).
    assert (L2 = L /\ stored nl us2 = stored nl us) as [-> SU].
    { rewrite SP in T1. assert (length L = length L2) as LQ by (unfold len in *; lia). clear - T1 LQ. revert L2 T1 LQ. induction L as [|x L IH]; intros [|y L2] T1 LQ; try discriminate LQ; [split; [reflexivity | symmetry; exact T1]|].
      cbn [app] in T1. injection T1 as -> T1. destruct (IH L2 T1 ltac:(injection LQ as LQ; exact LQ)) as [-> ->]. split; reflexivity. }
    rewrite <- SU in *. cbn [bind fst snd]. apply (GO (x_nal st) [] out eq_refl).
    destruct (x_left st - Z.of_nat k <=? 0) eqn:Q.
    + rewrite (LE ltac:(lia)) in *. rewrite ER, T5. cbn [app]. apply next_todo. exact T4.
    + unfold todo. cbn [x_phase x_left x_first x_nal]. exists L', us2. split; [exact ER|]. split; [exact EN|]. split; [apply LN; lia|]. split; [exact T4 | exact T5].
Qed.

Lemma all_good fuel : good fuel.
Proof.
  induction fuel as [|fuel IH]; intros st b R out LF T.
  - destruct b; [|cbn [length] in LF; lia]. exists [], out, st. repeat split. exact T.
  - destruct b as [|b0 b']; [exists [], out, st; repeat split; exact T|]. set (b := b0 :: b') in *.
    assert (b <> []) as NB by discriminate.
    assert (x_phase st <> PSize -> exists o out' st', anx_loop E iv nl (S fuel) st b = Ok (o, st') /\ out = o ++ out' /\ todo st' R out') as OTH.
    { intros NP. destruct (copy_good fuel IH [] st b R out NB ltac:(destruct (x_phase st); lia) NP T) as (o & out' & st' & W & EQ & TD). exists o, out', st'. split; [|split; assumption].
      etransitivity; [|exact W]. cbn [anx_loop]. unfold b at 1. destruct (x_phase st) eqn:PH; [congruence | |]; unfold copying; rewrite PH; reflexivity. }
    destruct (x_phase st) eqn:PH; [|apply OTH; congruence|apply OTH; congruence]. clear OTH.
    pose proof T as T0. unfold todo in T. rewrite PH in T. destruct T as [(RN & _)|(hs & u & us & T1 & T2 & T3 & T4 & T5 & T6 & T7)]; [discriminate|].
    pose proof (Forall_inv T6) as (U1 & U2 & U3 & U4). pose proof (Forall_inv_tail T6) as FU. assert (0 < len u) as Lu by (unfold len; destruct u; [congruence | cbn [length]; lia]).
    assert (x_left st * 256 ^ Z.of_nat (length hs) + unbe hs < 2 ^ 32) as BD by lia.
    destruct (split_two _ _ _ _ T1) as [(e & EH & ER)|(e & EB & EU & NE)].
    + (* the size is not complete, or just complete *)
      assert (anx_loop E iv nl (S fuel) st b = Ok ([], Anx PSize (x_first st) (length e) (x_left st * 256 ^ Z.of_nat (length b) + unbe b) (x_nal st))) as W.
      { cbn [anx_loop]. unfold b at 1. rewrite PH, <- T2. rewrite EH. rewrite take_some; [reflexivity | rewrite <- EH; exact T3 | exact T4 | rewrite <- EH; exact BD]. }
      exists [], out. eexists. split; [exact W|]. split; [reflexivity|]. unfold todo. cbn [x_phase x_bytes x_left x_first]. right. exists e, u, us.
      subst hs. rewrite Forall_app in T3. destruct T3 as [Tb Te]. rewrite app_length, unbe_app in T5.
      split; [exact ER|]. split; [reflexivity|]. split; [exact Te|]. split; [pose proof (unbe_bound b Tb); nia|]. split; [|split; [exact T6 | exact T7]].
      rewrite <- T5, Nat2Z.inj_add, Z.pow_add_r by lia. ring.
    + (* a unit starts: e is what there is of it *)
      assert (take_size (x_bytes st) (x_left st) b = (O, len u, e)) as TS by (rewrite EB, <- T2, take_all by assumption; rewrite T5; reflexivity).
      assert (length e <= fuel)%nat as Le.
      { apply (f_equal (@length Z)) in EB. rewrite app_length in EB. destruct (Nat.eqb_spec (x_bytes st) 0); lia. }
      assert (hd 0 e = hd 0 u) as HD. { destruct e as [|x e]; [congruence|]. destruct u as [|y u]; [congruence|]. cbn [app] in EU. injection EU as -> _. reflexivity. }
      cbn [anx_loop]. unfold b at 1. rewrite PH, TS. destruct e as [|x e'] eqn:Qe; [congruence|].
      assert (x = hd 0 u) as HX by exact HD. rewrite <- Qe in *. 
      assert (len u <=? 0 = false) as -> by lia. cbv zeta. rewrite HX.
      destruct (Z.land (hd 0 u) 31 =? 9) eqn:DL.
      * destruct (IH (Anx PSkip (x_first st) 0 (len u) (x_nal st)) e R out) as (o & out' & st' & W & EQ & TD); [cbn [x_phase]; lia | | exists o, out', st'; split; [exact W | split; assumption]].
        unfold todo. cbn [x_phase x_left x_first]. exists u, us. split; [symmetry; exact EU|]. split; [reflexivity|]. split; [exact U1|]. split; [exact FU|]. rewrite T7. cbn [emits]. unfold delimiter. rewrite DL. reflexivity.
      * set (pre := if x_first st then [0; 0; 0; 1] else [0; 0; 1]). set (st1 := Anx PCopy false 0 (len u) (start_nal iv (x_nal st) (Z.land (hd 0 u) 31) (len u))).
        assert (todo st1 (e ++ R) (emit u ++ emits false us)) as TD1.
        { unfold todo, st1. cbn [x_phase x_left x_first x_nal]. exists u, us. split; [symmetry; exact EU|]. split; [reflexivity|]. split; [exact U1|]. split; [exact U2|]. split; [exact FU|]. split; [reflexivity|].
          unfold emit, slice. destruct (((Z.land (hd 0 u) 31 =? 1) || (Z.land (hd 0 u) 31 =? 5)) && (48 <? len u)) eqn:SL.
          - left. destruct (start_inv E iv (x_nal st) u IV ltac:(lia) ltac:(lia)) as (S1 & S2 & S3). split; [exact S1|]. rewrite S2, S3. reflexivity.
          - right. unfold start_nal. assert (negb ((Z.land (hd 0 u) 31 =? 1) || (Z.land (hd 0 u) 31 =? 5)) || (len u <=? 48) = true) as -> by lia. split; reflexivity. }
        destruct (copy_good fuel IH pre st1 e R _ NE ltac:(lia) ltac:(discriminate) TD1) as (o & out' & st' & W & EQ & TD).
        exists (pre ++ o), out', st'. split; [|split; [|exact TD]].
        -- etransitivity; [|exact W]. reflexivity.
        -- rewrite T7. cbn [emits]. unfold delimiter. rewrite DL. unfold marker. fold pre. rewrite EQ. rewrite <- app_assoc. reflexivity.
Qed.

Lemma writes_good l : forall st R out, todo st (concat l ++ R) out -> exists o out' st', anx_writes E iv nl st l = Ok (o, st') /\ out = o ++ out' /\ todo st' R out'.
Proof.
  induction l as [|b l IH]; intros st R out T; [exists [], out, st; repeat split; exact T|]. cbn [concat] in T. rewrite <- app_assoc in T. cbn [anx_writes].
  destruct (all_good (S (length b)) st b (concat l ++ R) out ltac:(destruct (x_phase st); [destruct (_ =? _)%nat|..]; lia) T) as (o & out1 & st1 & W & EQ & T1). rewrite W. cbn [bind fst snd].
  destruct (IH st1 R out1 T1) as (o2 & out2 & st2 & W2 & EQ2 & T2). rewrite W2. cbn [bind fst snd]. exists (o ++ o2), out2, st2. split; [reflexivity|]. split; [rewrite EQ, EQ2, app_assoc; reflexivity | exact T2].
Qed.

Lemma todo_end st out : todo st [] out -> out = [].
Proof.
  unfold todo. destruct (x_phase st).
  - intros [(_ & _ & _ & ->)|(hs & u & us & T1 & _ & _ & _ & _ & T6 & _)]; [reflexivity|]. exfalso. inversion T6 as [|? ? (U1 & _) _]; subst. symmetry in T1. apply app_eq_nil in T1. destruct T1 as [_ T1]. apply app_eq_nil in T1. destruct T1. congruence.
  - intros (L & us & T1 & _ & T3 & _). exfalso. symmetry in T1. apply app_eq_nil in T1. destruct T1. congruence.
  - intros (L & us & T1 & _ & T3 & _). exfalso. symmetry in T1. apply app_eq_nil in T1. destruct T1. congruence.
Qed.

Lemma emits_read us : forall first, Forall unit_ok us ->
  exists xs, Forall2 (fun u x => read_nal D iv x = u /\ (slice u = true -> no_start_code x /\ last x 0 = last u 0) /\ (slice u = false -> x = u))
      (filter (fun u => negb (delimiter u)) us) xs
    /\ emits first us = match xs with [] => [] | x :: xs => marker first ++ x ++ flat_map (fun x => [0; 0; 1] ++ x) xs end.
Proof.
  induction us as [|u us IH]; intros first F; [exists []; split; [apply Forall2_nil | reflexivity]|]. inversion F as [|? ? (U1 & U2 & U3 & U4) FU]; subst. cbn [filter emits].
  destruct (delimiter u); cbn [negb]; [apply IH; exact FU|]. destruct (IH false FU) as (xs & F2 & EQ). exists (emit u :: xs). split.
  - apply Forall2_cons; [|exact F2]. unfold emit. destruct (slice u) eqn:SL.
    + unfold slice in SL. destruct (read_enc E D ED iv u IV U2 ltac:(lia) ltac:(lia)) as (R1 & R2 & R3). split; [exact R1|]. split; [intros _; split; assumption | discriminate].
    + split; [|split; [discriminate | reflexivity]]. unfold read_nal. unfold slice, len in SL. cbv zeta. rewrite SL. reflexivity.
  - f_equal. f_equal. rewrite EQ. destruct xs as [|x xs]; [reflexivity|]. reflexivity.
Qed.

Theorem frame_ok extra key n us chunks : Forall unit_ok us -> concat chunks = stored nl us ->
  exists xs, Forall2 (fun u x => read_nal D iv x = u /\ (slice u = true -> no_start_code x /\ last x 0 = last u 0) /\ (slice u = false -> x = u))
      (filter (fun u => negb (delimiter u)) us) xs
    /\ sample_aes_frame E iv nl extra key (len (stored nl us)) n chunks =
       Ok ([0; 0; 0; 1; 9; 240] ++ (if key then extra else []) ++
           match xs with [] => [] | x :: xs => [0; 0; 0; 1] ++ x ++ flat_map (fun x => [0; 0; 1] ++ x) xs end).
Proof.
  intros F C. destruct (emits_read us true F) as (xs & F2 & EQ). exists xs. split; [exact F2|]. unfold sample_aes_frame, anx_start.
  assert ((0 <? len (stored nl us)) && (len (stored nl us) <=? Z.of_nat nl) = false) as ->.
  { destruct us as [|u us]; [reflexivity|]. inversion F as [|? ? (U1 & _) _]; subst. cbn [stored flat_map]. unfold len. rewrite !app_length, be_length. destruct u; [congruence|]. cbn [length]. lia. }
  cbn [bind fst snd].
  destruct (writes_good chunks (Anx PSize true nl 0 n) [] (emits true us)) as (o & out' & st' & W & EO & T); [rewrite app_nil_r, C; apply next_todo; exact F|].
  rewrite W. cbn [bind fst snd]. rewrite (todo_end _ _ T), app_nil_r in EO. rewrite <- EO, EQ. rewrite <- app_assoc. reflexivity.
Qed.
End Cipher.
