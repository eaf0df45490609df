(* SAMPLE-AES of audio. *)
From Coq Require Import ZArith List Bool Lia ZifyBool Arith.
From Verif Require Import Bytes HlsModel HlsSpec HlsProofs HlsProofs2 HlsProofs3.
Import ListNotations.
Open Scope Z_scope.

Section Cipher.
Variables E D : list Z -> list Z.
Hypothesis ED : cipher E D.

Definition cbc_good (c : cbc) : Prop := is_block (c_chain c) /\ Forall is_byte (c_buf c).
Lemma update_good c l : cbc_good c -> Forall is_byte l -> cbc_good (snd (cbc_update E c l)).
Proof. intros [A B] F. destruct (update_len E D c l ED A B F) as (_ & U1 & U2). split; assumption. Qed.
Lemma update_nil c : (length (c_buf c) < 16)%nat -> cbc_update E c [] = ([], c).
Proof. intros L. rewrite update_small by (cbn [length]; lia). rewrite app_nil_r. destruct c; reflexivity. Qed.
Lemma update_buf c l : length (c_buf (snd (cbc_update E c l))) = ((length (c_buf c) + length l) mod 16)%nat.
Proof.
  rewrite update_eq. cbn [snd c_buf]. rewrite skipn_length, app_length. set (n := (length (c_buf c) + length l)%nat). pose proof (Nat.div_mod n 16 ltac:(lia)). lia.
Qed.

(* ----- the loop of encryption *)
Lemma enc_loop_ok fuel : forall limit st p rest, (length p <= fuel)%nat -> Forall is_byte p -> cbc_good (r_cbc st) -> (length (c_buf (r_cbc st)) < 16)%nat ->
  0 <= r_cur st -> limit < 2 ^ 32 -> len p = Z.max 0 (limit - r_cur st) ->
  enc_loop E fuel limit st (p ++ rest) = Ok (fst (cbc_update E (r_cbc st) p), Frm (r_cur st + len p) (r_max st) (snd (cbc_update E (r_cbc st) p)), rest).
Proof.
  induction fuel as [|fuel IH]; intros limit st p rest LF B G K C0 LM LP.
  - destruct p; [|cbn [length] in LF; lia]. change (len []) with 0 in *. cbn [enc_loop]. assert (negb (r_cur st <? limit) = true) as -> by lia. rewrite update_nil by exact K. cbn [fst snd app]. rewrite Z.add_0_r. destruct st; reflexivity.
  - cbn [enc_loop]. destruct (r_cur st <? limit) eqn:Q; cbn [negb].
    2:{ assert (p = []) as -> by (destruct p; [reflexivity | unfold len in LP; cbn [length] in LP; lia]). rewrite update_nil by exact K. change (len []) with 0. cbn [fst snd app]. rewrite Z.add_0_r. destruct st; reflexivity. }
    set (k := Z.to_nat (Z.min 256 (limit - r_cur st))).
    assert (0 < k <= length p)%nat as Hk by (unfold k, len in *; lia). assert (k <= 256)%nat as K2 by (unfold k; lia).
    rewrite firstn_le_app by lia. rewrite skipn_le_app by lia.
    assert (Forall is_byte (firstn k p)) as Bk by (apply Forall_firstn; exact B).
    destruct (update_len E D (r_cbc st) (firstn k p) ED (proj1 G) (proj2 G) Bk) as (U1 & U2 & U3).
    pose proof (update_ok E (r_cbc st) (firstn k p)) as U4.
    pose proof (update_app E (r_cbc st) (firstn k p) (skipn k p)) as UA. rewrite firstn_skipn in UA.
    destruct (cbc_update E (r_cbc st) (firstn k p)) as [o c]. cbn [fst snd] in *.
    assert (256 <? len o = false) as ->.
    { unfold len. rewrite U1, firstn_length. pose proof (Nat.div_mod (length (c_buf (r_cbc st)) + Nat.min k (length p)) 16 ltac:(lia)) as DM. pose proof (Nat.mod_upper_bound (length (c_buf (r_cbc st)) + Nat.min k (length p)) 16 ltac:(lia)). lia. }
    assert (u32 (r_cur st + Z.of_nat k) = r_cur st + Z.of_nat k) as -> by (unfold u32; apply Z.mod_small; unfold k; lia).
    rewrite (IH limit (Frm (r_cur st + Z.of_nat k) (r_max st) c) (skipn k p) rest); cbn [r_cur r_max r_cbc].
    + cbn [bind fst snd]. rewrite UA. cbn [fst snd]. f_equal. f_equal. f_equal. f_equal. unfold len. rewrite skipn_length. lia.
    + rewrite skipn_length. lia.
    + apply Forall_skipn. exact B.
    + split; assumption.
    + exact U4.
    + lia.
    + exact LM.
    + unfold len in *. rewrite skipn_length. lia.
Qed.

(* ----- the state within a frame: [L] is what remains of it *)
Definition lead (st : frm) : nat := Z.to_nat (16 - r_cur st).
Definition mid (st : frm) : nat := Z.to_nat (r_max st - Z.max 16 (r_cur st)).
Definition outf (st : frm) (L : list Z) : list Z :=
  firstn (lead st) L ++ fst (cbc_update E (r_cbc st) (firstn (mid st) (skipn (lead st) L))) ++ skipn (mid st) (skipn (lead st) L).
Definition endf (st : frm) (L : list Z) : cbc := snd (cbc_update E (r_cbc st) (firstn (mid st) (skipn (lead st) L))).
Definition finv (st : frm) (L : list Z) : Prop :=
  0 <= r_cur st <= Z.max 16 (r_max st) /\ r_cur st + len L < 2 ^ 31 /\ r_max st <= r_cur st + len L /\ r_max st mod 16 = 0
  /\ cbc_good (r_cbc st) /\ Z.of_nat (length (c_buf (r_cbc st))) = (if r_cur st <? 16 then 0 else r_cur st mod 16).

Lemma finv_small st L : finv st L -> (length (c_buf (r_cbc st)) < 16)%nat.
Proof. intros (_ & _ & _ & _ & _ & H). destruct (r_cur st <? 16); lia. Qed.

Lemma write_ok st b r : Forall is_byte (b ++ r) -> finv st (b ++ r) ->
  exists o st', write_frame E st b = Ok (o, st') /\ finv st' r /\ outf st (b ++ r) = o ++ outf st' r /\ endf st (b ++ r) = endf st' r.
Proof.
  intros B H. pose proof (finv_small _ _ H) as K. pose proof H as (H1 & H2 & H3 & H4 & H5 & H6).
  assert (Forall is_byte b) as Bb by (apply Forall_app in B; apply B).
  assert (len (b ++ r) = len b + len r) as Lbr by (unfold len; rewrite app_length; lia). rewrite Lbr in *. assert (0 <= len b /\ 0 <= len r) as [Lb0 Lr0] by (unfold len; lia).
  unfold write_frame. assert (u32 (r_cur st + len b) = r_cur st + len b) as -> by (unfold u32; apply Z.mod_small; lia).
  set (k := if r_cur st <? 16 then Z.to_nat (Z.min (len b) (16 - r_cur st)) else O).
  assert (k = Nat.min (length b) (lead st)) as Ek by (unfold k, lead, len; destruct (r_cur st <? 16) eqn:Q; lia).
  assert (Z.of_nat k = Z.max 0 (Z.min (len b) (16 - r_cur st))) as Kz by (unfold k, len; destruct (r_cur st <? 16) eqn:Q; lia). clearbody k.
  cbn [r_max].
  set (st1 := Frm (r_cur st + Z.of_nat k) (r_max st) (r_cbc st)).
  set (limit := Z.min (r_cur st + len b) (r_max st)).
  set (w := Z.to_nat (limit - r_cur st1)).
  assert (Z.of_nat w = Z.max 0 (Z.min (r_cur st + len b) (r_max st) - (r_cur st + Z.of_nat k))) as Wz by (unfold w, limit, st1; cbn [r_cur]; lia). assert (limit = Z.min (r_cur st + len b) (r_max st)) as Lz by reflexivity. clearbody w limit.
  assert (w <= length (skipn k b))%nat as Hw by (unfold len in *; rewrite skipn_length; lia).
  assert (skipn k b = firstn w (skipn k b) ++ skipn w (skipn k b)) as SK by (symmetry; apply firstn_skipn).
  assert (len (firstn w (skipn k b)) = Z.of_nat w) as Lw by (unfold len; rewrite firstn_length; lia).
  assert (enc_loop E (length b) limit st1 (skipn k b) = Ok (fst (cbc_update E (r_cbc st1) (firstn w (skipn k b))), Frm (r_cur st1 + len (firstn w (skipn k b))) (r_max st1) (snd (cbc_update E (r_cbc st1) (firstn w (skipn k b)))), skipn w (skipn k b))) as W.
  { etransitivity; [exact (f_equal (enc_loop E (length b) limit st1) SK)|]. apply enc_loop_ok; [rewrite firstn_length, skipn_length; lia | apply Forall_firstn, Forall_skipn; exact Bb | exact H5 | exact K | unfold st1; cbn [r_cur]; lia | lia | rewrite Lw; unfold st1; cbn [r_cur]; lia]. }
  rewrite W. clear W.
  cbn [bind r_cur r_max]. change (r_cbc st1) with (r_cbc st). change (r_max st1) with (r_max st). rewrite Lw.
  set (p := firstn w (skipn k b)) in *. set (t := skipn w (skipn k b)) in *.
  set (st2 := Frm (r_cur st1 + Z.of_nat w) (r_max st) (snd (cbc_update E (r_cbc st) p))).
  set (tr := if r_cur st1 + Z.of_nat w <? r_cur st + len b then firstn (Z.to_nat (r_cur st + len b - (r_cur st1 + Z.of_nat w))) t else []).
  assert (tr = t) as TR.
  { unfold tr. assert (Z.of_nat (length t) = len b - Z.of_nat k - Z.of_nat w) as Lt by (unfold t, len; rewrite !skipn_length in *; lia).
    destruct (r_cur st1 + Z.of_nat w <? r_cur st + len b) eqn:Q; [apply firstn_all2; unfold st1 in *; cbn [r_cur] in *; lia|]. unfold st1 in Q. cbn [r_cur] in Q. destruct t; [reflexivity | cbn [length] in Lt; lia]. }
  rewrite TR.
  assert (finv st2 r) as F2.
  { unfold finv, st2, st1. cbn [r_cur r_max r_cbc]. split; [lia|].
    split; [lia|].
    split; [lia|].
    split; [exact H4|]. split; [apply update_good; [exact H5 | apply Forall_firstn, Forall_skipn; exact Bb]|].
    rewrite update_buf. assert (length p = w) as Lpw by (unfold len in Lw; lia). rewrite Lpw. rewrite Nat2Z.inj_mod, Nat2Z.inj_add. change (Z.of_nat 16) with 16. rewrite H6.
    destruct (r_cur st <? 16) eqn:Q; destruct (_ + _ <? 16) eqn:Q2; lia. }
  exists (firstn k b ++ fst (cbc_update E (r_cbc st) p) ++ t), st2. split; [reflexivity|]. split; [exact F2|].
  assert (length p = w) as Lpw by (unfold len in Lw; lia).
  (* three cases: in the lead, in the middle, at the end *)
  destruct (Nat.le_gt_cases (length b) (lead st)) as [C|C].
  - assert (k = length b) as Kb by lia. assert (skipn k b = []) as Sk by (rewrite Kb; apply skipn_all).
    assert (p = []) as Ep by (unfold p; rewrite Sk; apply firstn_nil). assert (t = []) as Et by (unfold t; rewrite Sk; apply skipn_nil). assert (w = O) as Ew by (rewrite Ep in Lpw; cbn [length] in Lpw; lia).
    assert (firstn k b = b) as Fk by (rewrite Kb; apply firstn_all).
    assert (st2 = Frm (r_cur st + Z.of_nat (length b)) (r_max st) (r_cbc st)) as E2.
    { unfold st2, st1. rewrite Ep, Ew, Kb. rewrite update_nil by exact K. cbn [snd r_cur]. f_equal. lia. }
    assert (lead st = length b + lead st2)%nat as EL by (rewrite E2; unfold lead in *; cbn [r_cur]; lia).
    assert (mid st2 = mid st) as EM. { rewrite E2. unfold mid. cbn [r_cur r_max]. unfold lead in C. destruct b as [|b0 b]; [cbn [length]; lia|]. cbn [length] in *. lia. }
    assert (firstn (lead st) (b ++ r) = b ++ firstn (lead st2) r) as F1 by (rewrite firstn_ge_app by lia; do 2 f_equal; lia).
    assert (skipn (lead st) (b ++ r) = skipn (lead st2) r) as S1 by (rewrite skipn_ge_app by lia; f_equal; lia).
    assert (r_cbc st2 = r_cbc st) as EC by (rewrite E2; reflexivity).
    unfold outf, endf. rewrite EM, F1, S1, EC, Fk, Ep, Et. rewrite (update_nil (r_cbc st)) by exact K. cbn [fst app]. rewrite app_nil_r, <- app_assoc. split; reflexivity.
  - assert (k = lead st) as Kl by lia. assert (r_cur st + Z.of_nat k = Z.max 16 (r_cur st)) as C1 by (rewrite Kl; unfold lead; lia).
    assert (lead st2 = O) as L2 by (unfold lead, st2, st1; cbn [r_cur]; lia).
    assert (forall x, skipn (lead st) (b ++ x) = skipn k b ++ x) as SX by (intros x; rewrite <- Kl; apply skipn_le_app; lia).
    assert (w = Nat.min (length (skipn k b)) (mid st)) as Wm. { unfold mid, len in *. rewrite skipn_length. lia. }
    assert (r_cur st2 = Z.max 16 (r_cur st) + Z.of_nat w) as C2 by (unfold st2, st1; cbn [r_cur]; lia).
    assert (mid st2 = mid st - w)%nat as M2 by (unfold mid; rewrite C2; change (r_max st2) with (r_max st); lia).
    unfold outf, endf. rewrite SX, L2, firstn_O, skipn_O. rewrite (firstn_le_app (lead st) b r) by lia. rewrite <- Kl.
    change (r_cbc st2) with (snd (cbc_update E (r_cbc st) p)). cbn [app].
    destruct (Nat.le_gt_cases (length (skipn k b)) (mid st)) as [C3|C3].
    + assert (w = length (skipn k b)) as Ww by lia. assert (p = skipn k b) as Ep by (unfold p; rewrite Ww; apply firstn_all). assert (t = []) as Et by (unfold t; rewrite Ww; apply skipn_all).
      rewrite firstn_ge_app, skipn_ge_app by exact C3. rewrite <- Ww, <- M2, <- Ep, Et. rewrite update_app. cbn [fst snd app]. rewrite app_nil_r, <- !app_assoc. split; reflexivity.
    + assert (w = mid st) as Ww by lia. assert (mid st2 = O) as M0 by lia. rewrite M0, firstn_O, skipn_O.
      rewrite firstn_le_app, skipn_le_app by lia. rewrite <- Ww. fold p t.
      pose proof (finv_small _ _ F2) as K2. change (r_cbc st2) with (snd (cbc_update E (r_cbc st) p)) in K2. rewrite (update_nil (snd (cbc_update E (r_cbc st) p))) by exact K2. cbn [fst snd app]. rewrite <- !app_assoc. split; reflexivity.
Qed.

Lemma writes_frame_ok l : forall st r, Forall is_byte (concat l ++ r) -> finv st (concat l ++ r) ->
  exists o st', write_frames E st l = Ok (o, st') /\ finv st' r /\ outf st (concat l ++ r) = o ++ outf st' r /\ endf st (concat l ++ r) = endf st' r.
Proof.
  induction l as [|b l IH]; intros st r B H; [exists [], st; repeat split; apply H|]. cbn [concat] in *. rewrite <- app_assoc in *. cbn [write_frames].
  destruct (write_ok st b (concat l ++ r) B H) as (o & st1 & W & F & EQ & EE). rewrite W. cbn [bind fst snd].
  destruct (IH st1 r ltac:(apply Forall_app in B; apply B) F) as (o2 & st2 & W2 & F2 & EQ2 & EE2). rewrite W2. cbn [bind fst snd]. exists (o ++ o2), st2. split; [reflexivity|]. split; [exact F2|].
  split; [rewrite EQ, EQ2, app_assoc; reflexivity | rewrite EE; exact EE2].
Qed.

Lemma end_nil st : finv st [] -> outf st [] = [] /\ endf st [] = r_cbc st /\ c_buf (r_cbc st) = [].
Proof.
  intros H. pose proof (finv_small _ _ H) as K. destruct H as (H1 & H2 & H3 & H4 & H5 & H6). change (len []) with 0 in *. unfold outf, endf. rewrite ?skipn_nil, ?firstn_nil, ?skipn_nil. rewrite update_nil by exact K. cbn [fst snd app]. split; [reflexivity|]. split; [reflexivity|].
  apply length_zero_iff_nil. destruct (r_cur st <? 16) eqn:Q; lia.
Qed.

(* ----- what a player reads *)
Lemma last_dflt (l : list (list Z)) d : l <> [] -> forall d', last l d = last l d'.
Proof. induction l as [|x l IH]; intros H d'; [congruence|]. destruct l as [|y l]; [reflexivity|]. apply IH. discriminate. Qed.

Lemma read_out ch cur max u : is_block ch -> Forall is_byte u -> cur = 0 -> max = len u - len u mod 16 ->
  let x := outf (Frm cur max (Cbc ch [])) u in
  read_audio D ch x = u /\ c_chain (endf (Frm cur max (Cbc ch [])) u) = last_block ch x /\ length x = length u /\ is_block (c_chain (endf (Frm cur max (Cbc ch [])) u)).
Proof.
  intros Hc Hu -> -> x. set (st := Frm 0 (len u - len u mod 16) (Cbc ch [])) in *.
  assert (lead st = 16%nat) as EL by reflexivity. set (n := (16 * ((length u - 16) / 16))%nat).
  assert (mid st = n) as EM.
  { unfold mid, st, n, len. cbn [r_cur r_max]. pose proof (Nat.div_mod (length u - 16) 16 ltac:(lia)). pose proof (Nat.mod_upper_bound (length u - 16) 16 ltac:(lia)). lia. }
  unfold x, outf, endf. rewrite EL, EM. change (r_cbc st) with (Cbc ch []). set (m := firstn n (skipn 16 u)).
  assert (length m = n) as Lm by (unfold m; rewrite firstn_length, skipn_length; unfold n; pose proof (Nat.mul_div_le (length u - 16) 16 ltac:(lia)); lia).
  assert (Forall is_byte m) as Bm by (apply Forall_firstn, Forall_skipn; exact Hu).
  rewrite update_eq. cbn [c_buf c_chain app fst snd]. rewrite Lm. assert (n / 16 = (length u - 16) / 16)%nat as Dn by (unfold n; rewrite Nat.mul_comm, Nat.div_mul by lia; reflexivity). rewrite Dn. fold n.
  destruct (blocks_facts E D ED ((length u - 16) / 16) ch m Hc Bm ltac:(lia)) as (B1 & B2 & B3 & B4 & B5 & _). fold n in B1, B4.
  destruct (blocks E ((length u - 16) / 16) ch m) as [o c]. cbn [fst snd] in *.
  set (tl := skipn n (skipn 16 u)).
  assert (u = firstn 16 u ++ m ++ tl) as SP by (unfold m, tl; rewrite !firstn_skipn; reflexivity).
  assert (length (firstn 16 u ++ o ++ tl) = length u) as LX. { apply (f_equal (@length Z)) in SP. rewrite !app_length in *. lia. }
  assert (firstn n (skipn 16 (firstn 16 u ++ o ++ tl)) = o /\ firstn 16 (firstn 16 u ++ o ++ tl) = firstn 16 u /\ skipn n (skipn 16 (firstn 16 u ++ o ++ tl)) = tl) as (R1 & R2 & R3).
  { destruct (Nat.le_gt_cases 16 (length u)) as [G|G].
    - assert (length (firstn 16 u) = 16%nat) as L16 by (rewrite firstn_length; lia). rewrite skipn_ge_app, (firstn_ge_app 16) by lia. rewrite L16, Nat.sub_diag, skipn_O, firstn_O, app_nil_r.
      rewrite firstn_ge_app, skipn_ge_app by lia. rewrite B1, Nat.sub_diag, firstn_O, skipn_O, app_nil_r. repeat split.
    - assert (n = O) as N0 by (unfold n; replace (length u - 16)%nat with O by lia; reflexivity). assert (o = []) as -> by (apply length_zero_iff_nil; lia).
      assert (tl = []) as -> by (unfold tl; rewrite (skipn_all2 (n:=16) u) by lia; apply skipn_nil). rewrite !app_nil_r. rewrite (firstn_all2 (n:=16) u) by lia.
      rewrite (skipn_all2 (n:=16) u) by lia. rewrite firstn_nil, skipn_nil. rewrite ?(firstn_all2 (n:=16) u) by lia. split; [reflexivity|]. split; reflexivity. }
  split; [|split; [|split]].
  - unfold read_audio. rewrite LX. fold n. cbv zeta. rewrite R1, R2, R3, B4. rewrite <- Lm, firstn_all. symmetry. exact SP.
  - unfold last_block. rewrite LX. fold n. cbv zeta. rewrite R1. exact B5.
  - exact LX.
  - exact B3.
Qed.

Lemma start_finv u st : 0 = r_cur st -> r_max st = len u - len u mod 16 -> len u < 2 ^ 31 -> cbc_good (r_cbc st) -> c_buf (r_cbc st) = [] -> finv st u.
Proof. intros C M L G B. unfold finv. rewrite <- C, M, B. cbn [length]. change (0 <? 16) with true. assert (0 <= len u) by (unfold len; lia). split; [lia|]. split; [lia|]. split; [lia|]. split; [lia|]. split; [exact G | reflexivity]. Qed.

Definition idle (st : frm) : Prop := cbc_good (r_cbc st) /\ c_buf (r_cbc st) = [].

Theorem audio_ok iv (IV : is_block iv) fs : forall st, idle st -> Forall (fun f => Forall is_byte (concat f) /\ len (concat f) < 2 ^ 31) fs ->
  exists xs, audio_frames E iv st fs = Ok xs /\ Forall2 (fun f x => read_audio D iv x = concat f /\ length x = length (concat f)) fs xs.
Proof.
  induction fs as [|f fs IH]; intros st I F; [exists []; split; [reflexivity | apply Forall2_nil]|]. inversion F as [|? ? [B L] F']; subst. cbn [audio_frames]. set (u := concat f) in *.
  set (st0 := start_frame iv st (len u)).
  assert (idle st0) as I0. { unfold idle, st0, start_frame. cbn [r_cbc]. destruct (_ <? _); [split; [split; [exact IV | apply Forall_nil] | reflexivity] | exact I]. }
  assert (finv st0 (concat f ++ [])) as FI by (rewrite app_nil_r; apply start_finv; [reflexivity | reflexivity | exact L | apply I0 | apply I0]).
  destruct (writes_frame_ok f st0 [] ltac:(rewrite app_nil_r; exact B) FI) as (o & st' & W & F2 & EQ & EE). rewrite W. cbn [bind fst snd].
  destruct (end_nil st' F2) as (N1 & N2 & N3). rewrite N1, !app_nil_r in EQ.
  assert (idle st') as I' by (split; [apply F2 | exact N3]). destruct (IH st' I' F') as (xs & W2 & FF). rewrite W2. cbn [bind]. exists (o :: xs). split; [reflexivity|]. apply Forall2_cons; [|exact FF].
  rewrite <- EQ. fold u. unfold st0, start_frame. destruct (16 <? len u - len u mod 16) eqn:Q.
  - destruct (read_out iv 0 (len u - len u mod 16) u IV B eq_refl eq_refl) as (R1 & _ & R2 & _). split; [exact R1 | exact R2].
  - (* nothing is encrypted *)
    unfold outf. assert (mid (Frm 0 (len u - len u mod 16) (r_cbc st)) = O) as -> by (unfold mid; cbn [r_cur r_max]; lia). rewrite firstn_O, skipn_O. cbn [r_cbc]. rewrite update_nil by (rewrite (proj2 I); cbn; lia). cbn [fst app]. rewrite firstn_skipn.
    split; [|reflexivity]. unfold read_audio. assert (length u < 32)%nat as LU by (unfold len in Q; lia). assert (16 * ((length u - 16) / 16) = 0)%nat as -> by (rewrite Nat.div_small by lia; reflexivity). rewrite firstn_O, skipn_O. cbn [in_blocks cut length cbc_decrypt app]. apply firstn_skipn.
Qed.
End Cipher.
