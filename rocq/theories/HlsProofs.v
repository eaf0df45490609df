(* CBC, and the encryption of whole segments. *)
From Coq Require Import ZArith List Bool Lia ZifyBool Arith.
From Verif Require Import Bytes HlsModel HlsSpec.
Import ListNotations.
Open Scope Z_scope.

(* ----- lists *)
Lemma firstn_le_app {A} n (a b : list A) : (n <= length a)%nat -> firstn n (a ++ b) = firstn n a.
Proof. intros H. rewrite firstn_app. replace (n - length a)%nat with O by lia. apply app_nil_r. Qed.
Lemma skipn_le_app {A} n (a b : list A) : (n <= length a)%nat -> skipn n (a ++ b) = skipn n a ++ b.
Proof. intros H. rewrite skipn_app. replace (n - length a)%nat with O by lia. reflexivity. Qed.
Lemma firstn_ge_app {A} n (a b : list A) : (length a <= n)%nat -> firstn n (a ++ b) = a ++ firstn (n - length a) b.
Proof. intros H. rewrite firstn_app, firstn_all2 by exact H. reflexivity. Qed.
Lemma skipn_ge_app {A} n (a b : list A) : (length a <= n)%nat -> skipn n (a ++ b) = skipn (n - length a) b.
Proof. intros H. rewrite skipn_app, skipn_all2 by exact H. reflexivity. Qed.
Lemma skipn_plus {A} a : forall b (l : list A), skipn a (skipn b l) = skipn (b + a) l.
Proof. induction b as [|b IH]; intros l; [reflexivity|]. destruct l as [|x l]; [destruct a; reflexivity | apply IH]. Qed.
Lemma firstn_plus {A} a : forall b (l : list A), firstn (a + b) l = firstn a l ++ firstn b (skipn a l).
Proof. induction a as [|a IH]; intros b l; [reflexivity|]. destruct l as [|x l]; [destruct b; reflexivity|]. cbn [Nat.add firstn skipn app]. f_equal. apply IH. Qed.
Lemma Forall_firstn {A} (P : A -> Prop) n l : Forall P l -> Forall P (firstn n l).
Proof. intros H. rewrite <- (firstn_skipn n l) in H. apply Forall_app in H. apply H. Qed.
Lemma Forall_skipn {A} (P : A -> Prop) n l : Forall P l -> Forall P (skipn n l).
Proof. intros H. rewrite <- (firstn_skipn n l) in H. apply Forall_app in H. apply H. Qed.

(* ----- exclusive or *)
Lemma xors_xor a : forall b, xors a b = xor a b.
Proof. induction a as [|x a IH]; intros [|y b]; try reflexivity. unfold xor. cbn. f_equal. apply IH. Qed.
Lemma xor_len a b : length (xor a b) = Nat.min (length a) (length b).
Proof. unfold xor. rewrite map_length, combine_length. reflexivity. Qed.
Lemma xor_back a : forall b, length a = length b -> xor (xor a b) a = b.
Proof.
  induction a as [|x a IH]; intros [|y b] L; try discriminate; [reflexivity|]. unfold xor in *. cbn. f_equal; [|apply IH; injection L as L; exact L].
  rewrite Z.lxor_comm, <- Z.lxor_assoc, Z.lxor_nilpotent. apply Z.lxor_0_l.
Qed.
Lemma lxor_byte x y : is_byte x -> is_byte y -> is_byte (Z.lxor x y).
Proof.
  unfold is_byte. intros Hx Hy. assert (0 <= Z.lxor x y) as H0 by (apply Z.lxor_nonneg; lia). split; [exact H0|].
  destruct (Z.eq_dec (Z.lxor x y) 0) as [->|N]; [lia|]. apply Z.log2_lt_cancel. change (Z.log2 256) with 8.
  eapply Z.le_lt_trans; [apply Z.log2_lxor; lia|].
  assert (forall v, 0 <= v < 256 -> Z.log2 v < 8) as L.
  { intros v Hv. destruct (Z.eq_dec v 0) as [->|]; [reflexivity|]. apply Z.log2_lt_pow2; lia. }
  apply Z.max_lub_lt; apply L; assumption.
Qed.
Lemma xor_bytes a : forall b, Forall is_byte a -> Forall is_byte b -> Forall is_byte (xor a b).
Proof.
  induction a as [|x a IH]; intros [|y b] Ha Hb; try apply Forall_nil. inversion Ha; inversion Hb; subst. unfold xor. cbn. apply Forall_cons; [apply lxor_byte; assumption | apply IH; assumption].
Qed.
Lemma xor_block a b : is_block a -> is_block b -> is_block (xor a b).
Proof. intros [La Ba] [Lb Bb]. split; [rewrite xor_len, La, Lb; reflexivity | apply xor_bytes; assumption]. Qed.

(* ----- blocks *)
Lemma cut_enough n : forall m l, (length l <= n)%nat -> (length l <= m)%nat -> cut n l = cut m l.
Proof.
  induction n as [|n IH]; intros m l Hn Hm.
  - destruct l; [destruct m; reflexivity | cbn [length] in Hn; lia].
  - destruct m as [|m]; [destruct l; [reflexivity | cbn [length] in Hm; lia]|]. cbn [cut]. destruct l as [|x l]; [reflexivity|]. f_equal. apply IH; rewrite skipn_length; lia.
Qed.
Lemma in_blocks_cons a r : length a = 16%nat -> in_blocks (a ++ r) = a :: in_blocks r.
Proof.
  intros L. unfold in_blocks. rewrite app_length, L. change (16 + length r)%nat with (S (15 + length r)). cbn [cut].
  destruct (a ++ r) as [|x y] eqn:E; [apply (f_equal (@length Z)) in E; rewrite app_length, L in E; discriminate|]. rewrite <- E.
  rewrite firstn_le_app by lia. rewrite firstn_all2 by lia. rewrite skipn_ge_app by lia. rewrite L. f_equal. cbn [Nat.sub skipn]. apply cut_enough; lia.
Qed.

Lemma blocks_app E n : forall m ch l,
  blocks E (n + m) ch l =
  (fst (blocks E n ch l) ++ fst (blocks E m (snd (blocks E n ch l)) (skipn (16 * n) l)), snd (blocks E m (snd (blocks E n ch l)) (skipn (16 * n) l))).
Proof.
  induction n as [|n IH]; intros m ch l; [cbn [blocks fst snd app Nat.add Nat.mul skipn]; destruct (blocks E m ch l); reflexivity|].
  cbn [blocks Nat.add]. rewrite IH. destruct (blocks E n (E (xors ch (firstn 16 l))) (skipn 16 l)) as [o c]. cbn [fst snd].
  rewrite skipn_plus. replace (16 + 16 * n)%nat with (16 * S n)%nat by lia. rewrite <- app_assoc. reflexivity.
Qed.
(* only the blocks are looked at *)
Lemma blocks_cut E n : forall ch a b, (16 * n <= length a)%nat -> blocks E n ch (a ++ b) = blocks E n ch a.
Proof.
  induction n as [|n IH]; intros ch a b L; [reflexivity|]. cbn [blocks]. rewrite firstn_le_app by lia. rewrite skipn_le_app by lia. rewrite IH by (rewrite skipn_length; lia). reflexivity.
Qed.

Section Cipher.
Variables E D : list Z -> list Z.
Hypothesis ED : cipher E D.

Lemma blocks_facts n : forall ch l, is_block ch -> Forall is_byte l -> (16 * n <= length l)%nat ->
  let o := fst (blocks E n ch l) in
  length o = (16 * n)%nat /\ Forall is_byte o /\ is_block (snd (blocks E n ch l))
  /\ cbc_decrypt D ch (in_blocks o) = firstn (16 * n) l
  /\ snd (blocks E n ch l) = last (in_blocks o) ch
  /\ (forall r, in_blocks (o ++ r) = in_blocks o ++ in_blocks r).
Proof.
  induction n as [|n IH]; intros ch l Hc Hl L; [cbn; repeat split; try apply Forall_nil; try apply Hc|].
  assert (is_block (firstn 16 l)) as Hb by (split; [rewrite firstn_length; lia | apply Forall_firstn; exact Hl]).
  destruct (ED (xor ch (firstn 16 l)) (xor_block _ _ Hc Hb)) as [[HE1 HE2] HD].
  cbn [blocks]. rewrite xors_xor. set (c := E (xor ch (firstn 16 l))) in *.
  destruct (IH c (skipn 16 l) (conj HE1 HE2) (Forall_skipn _ 16 l Hl) ltac:(rewrite skipn_length; lia)) as (I1 & I2 & I3 & I4 & I5 & I6).
  destruct (blocks E n c (skipn 16 l)) as [o c']. cbn [fst snd] in *.
  split; [rewrite app_length, HE1, I1; lia|]. split; [apply Forall_app; split; assumption|]. split; [exact I3|].
  rewrite in_blocks_cons by exact HE1. split; [|split].
  - cbn [cbc_decrypt]. rewrite I4, HD. rewrite xor_back by (destruct Hc as [-> _]; symmetry; apply Hb).
    replace (16 * S n)%nat with (16 + 16 * n)%nat by lia. rewrite firstn_plus. reflexivity.
  - rewrite I5. clear. destruct (in_blocks o) as [|b bs]; [reflexivity|]. change (last (c :: b :: bs) ch) with (last (b :: bs) ch). revert b. induction bs as [|x bs IHb]; intros b; [reflexivity | apply IHb].
  - intros r. rewrite <- app_assoc. rewrite in_blocks_cons by exact HE1. rewrite I6. reflexivity.
Qed.
End Cipher.

(* ----- the cipher of OpenSSL *)
Definition cbc_ok (st : cbc) : Prop := (length (c_buf st) < 16)%nat.
Lemma update_eq E st l : cbc_update E st l =
  (fst (blocks E (length (c_buf st ++ l) / 16) (c_chain st) (c_buf st ++ l)),
   Cbc (snd (blocks E (length (c_buf st ++ l) / 16) (c_chain st) (c_buf st ++ l))) (skipn (16 * (length (c_buf st ++ l) / 16)) (c_buf st ++ l))).
Proof. unfold cbc_update. destruct (blocks E _ _ _); reflexivity. Qed.
Lemma update_ok E st l : cbc_ok (snd (cbc_update E st l)).
Proof. rewrite update_eq. unfold cbc_ok. cbn [snd c_buf]. rewrite skipn_length. set (n := length (c_buf st ++ l)). pose proof (Nat.div_mod n 16 ltac:(lia)). pose proof (Nat.mod_upper_bound n 16 ltac:(lia)). lia. Qed.
Lemma update_app E st a b : 
  cbc_update E st (a ++ b) = (fst (cbc_update E st a) ++ fst (cbc_update E (snd (cbc_update E st a)) b), snd (cbc_update E (snd (cbc_update E st a)) b)).
Proof.
  rewrite !update_eq. cbn [fst snd c_chain c_buf]. rewrite app_assoc. set (x := c_buf st ++ a). set (n := (length x / 16)%nat).
  assert (16 * n <= length x)%nat as Ln by (unfold n; apply Nat.mul_div_le; lia).
  rewrite <- (skipn_le_app (16 * n) x b) by exact Ln. set (y := skipn (16 * n) (x ++ b)).
  assert (length (x ++ b) = 16 * n + length y)%nat as Ly by (unfold y; rewrite skipn_length, app_length; lia).
  assert (length (x ++ b) / 16 = n + length y / 16)%nat as ->. { rewrite Ly. rewrite Nat.mul_comm, Nat.div_add_l by lia. reflexivity. }
  rewrite blocks_app. cbn [fst snd]. rewrite !(blocks_cut E n) by exact Ln. fold y. f_equal. f_equal.
  rewrite Nat.mul_add_distr_l. rewrite <- skipn_plus. reflexivity.
Qed.
Lemma update_len E D st l : cipher E D -> is_block (c_chain st) -> Forall is_byte (c_buf st) -> Forall is_byte l ->
  length (fst (cbc_update E st l)) = (16 * ((length (c_buf st) + length l) / 16))%nat /\ is_block (c_chain (snd (cbc_update E st l))) /\ Forall is_byte (c_buf (snd (cbc_update E st l))).
Proof.
  intros C Hc Hb Hl. rewrite update_eq. cbn [fst snd c_chain c_buf]. rewrite <- app_length. set (x := c_buf st ++ l).
  assert (Forall is_byte x) as Hx by (apply Forall_app; split; assumption).
  destruct (blocks_facts E D C (length x / 16) (c_chain st) x Hc Hx ltac:(apply Nat.mul_div_le; lia)) as (A & _ & B & _).
  split; [exact A|]. split; [exact B | apply Forall_skipn; exact Hx].
Qed.

(* ----- the writes of a segment *)
Definition pads (l : list Z) : list Z := let p := (16 - length l mod 16)%nat in l ++ repeat (Z.of_nat p) p.
Lemma pads_len l : length (pads l) = (16 * S (length l / 16))%nat.
Proof. unfold pads. rewrite app_length, repeat_length. pose proof (Nat.div_mod (length l) 16 ltac:(lia)). pose proof (Nat.mod_upper_bound (length l) 16 ltac:(lia)). lia. Qed.

(* all that is written, and the padding, in one go *)
Lemma update_final E st l : fst (cbc_update E st l) ++ cbc_final E (snd (cbc_update E st l)) =
  fst (blocks E (S (length (c_buf st ++ l) / 16)) (c_chain st) (pads (c_buf st ++ l))).
Proof.
  rewrite update_eq. unfold cbc_final. cbn [fst snd c_chain c_buf]. set (x := c_buf st ++ l). set (n := (length x / 16)%nat).
  assert (16 * n <= length x)%nat as Ln by (unfold n; apply Nat.mul_div_le; lia).
  pose proof (Nat.div_mod (length x) 16 ltac:(lia)) as DM. fold n in DM. pose proof (Nat.mod_upper_bound (length x) 16 ltac:(lia)) as MB.
  replace (S n) with (n + 1)%nat by lia. rewrite blocks_app. cbn [fst]. unfold pads.
  assert (length (skipn (16 * n) x) = length x mod 16)%nat as Lk by (rewrite skipn_length; lia). rewrite Lk.
  rewrite blocks_cut by exact Ln. rewrite skipn_le_app by exact Ln. f_equal. cbn [blocks fst]. rewrite app_nil_r. f_equal. f_equal.
  rewrite firstn_all2; [reflexivity|]. rewrite app_length, repeat_length, Lk. lia.
Qed.

Definition room (pool : option Z) (b : list Z) : Prop := match pool with Some s => round_up (len b) <= s | None => True end.

Lemma round_up_range n : 0 <= n -> n < round_up n <= n + 16 /\ round_up n mod 16 = 0.
Proof. unfold round_up, round_down. intros H. lia. Qed.

Lemma writes_ok E D pool (C : cipher E D) : forall l st, cbc_ok st -> is_block (c_chain st) -> Forall is_byte (c_buf st) ->
  Forall (fun b => b <> [] /\ Forall is_byte b /\ len b < 2 ^ 32 - 16 /\ room pool b) l ->
  cbc_writes E pool st l = Ok (fst (cbc_update E st (concat l)) ++ cbc_final E (snd (cbc_update E st (concat l)))).
Proof.
  induction l as [|b l IH]; intros st K Hc Hb F.
  - cbn [cbc_writes concat]. change (cbc_write E pool st []) with (Ok (cbc_final E st, st)). cbn [bind fst]. f_equal.
    rewrite update_eq. rewrite app_nil_r. unfold cbc_ok in K. rewrite Nat.div_small by exact K. cbn [blocks fst snd Nat.mul skipn app]. destruct st; reflexivity.
  - inversion F as [|? ? (NE & B & L & R) F']; subst. cbn [cbc_writes concat]. rewrite update_app. unfold cbc_write at 1.
    assert (0 < len b) as Lb by (unfold len; destruct b; [congruence | cbn [length]; lia]).
    assert (u32 (len b) = len b) as -> by (unfold u32; apply Z.mod_small; lia).
    assert (u32 (len b + 16) = len b + 16) as -> by (unfold u32; apply Z.mod_small; lia).
    assert (len b <=? 0 = false) as -> by lia. fold (round_up (len b)).
    set (buffer := match pool with Some s => s | None => round_up (len b) end).
    assert (round_up (len b) <= buffer) as RB by (unfold buffer; destruct pool; [exact R | lia]).
    assert (buffer <? round_up (len b) = false) as -> by lia.
    destruct (update_len E D st b C Hc Hb B) as (U1 & U2 & U3). pose proof (update_ok E st b) as U4.
    destruct (cbc_update E st b) as [o st']. cbn [fst snd] in *.
    assert (len o <=? buffer = true) as ->.
    { unfold len in *. rewrite U1. unfold cbc_ok in K. pose proof (Nat.div_mod (length (c_buf st) + length b) 16 ltac:(lia)). pose proof (Nat.mod_upper_bound (length (c_buf st) + length b) 16 ltac:(lia)).
      unfold round_up, round_down in RB. lia. }
    cbn [bind fst snd]. rewrite (IH st' U4 U2 U3 F'). cbn [bind]. rewrite <- app_assoc. reflexivity.
Qed.

Lemma last_repeat n : forall (x d : Z), (0 < n)%nat -> last (repeat x n) d = x.
Proof. induction n as [|n IH]; intros x d H; [lia|]. destruct n as [|n]; [reflexivity|]. change (last (repeat x (S (S n))) d) with (last (repeat x (S n)) d). apply IH. lia. Qed.
Lemma last_app_ne {A} (a b : list A) d : b <> [] -> last (a ++ b) d = last b d.
Proof.
  induction a as [|x a IH]; intros H; [reflexivity|]. cbn [app]. destruct (a ++ b) as [|y z] eqn:Q; [apply app_eq_nil in Q; destruct Q; congruence|]. 
  change (last (x :: y :: z) d) with (last (y :: z) d). apply IH. exact H.
Qed.
Lemma unpad_pads l : unpad (pads l) = Some l.
Proof.
  unfold unpad. pose proof (pads_len l) as PL. unfold pads in *. set (p := (16 - length l mod 16)%nat) in *. pose proof (Nat.mod_upper_bound (length l) 16 ltac:(lia)) as MB.
  assert (0 < p <= 16)%nat as Hp by (unfold p; lia).
  assert (last (l ++ repeat (Z.of_nat p) p) 0 = Z.of_nat p) as -> by (rewrite last_app_ne; [apply last_repeat; lia | destruct p; [lia | discriminate]]).
  rewrite app_length, repeat_length, Nat2Z.id. replace (length l + p - p)%nat with (length l) by lia.
  rewrite skipn_ge_app, firstn_ge_app by lia. rewrite Nat.sub_diag. cbn [skipn firstn]. rewrite app_nil_r.
  assert (forallb (Z.eqb (Z.of_nat p)) (repeat (Z.of_nat p) p) = true) as ->.
  { apply forallb_forall. intros x Hx. apply repeat_spec in Hx. lia. }
  assert (1 <=? Z.of_nat p = true) as -> by lia. assert (Z.of_nat p <=? 16 = true) as -> by lia. assert (Z.of_nat p <=? Z.of_nat (length l + p) = true) as -> by lia. reflexivity.
Qed.
Lemma pads_bytes l : Forall is_byte l -> Forall is_byte (pads l).
Proof. intros H. unfold pads. apply Forall_app. split; [exact H|]. apply Forall_forall. intros x Hx. apply repeat_spec in Hx. pose proof (Nat.mod_upper_bound (length l) 16 ltac:(lia)). unfold is_byte. lia. Qed.

Lemma padded_decrypts E D iv l : cipher E D -> is_block iv -> Forall is_byte l ->
  let o := fst (blocks E (S (length l / 16)) iv (pads l)) in
  decrypt_segment D iv o = Some l /\ len o = round_up (len l).
Proof.
  intros C Hi Hl o. destruct (blocks_facts E D C (S (length l / 16)) iv (pads l) Hi (pads_bytes l Hl) ltac:(rewrite pads_len; lia)) as (A & _ & _ & B & _). fold o in A, B.
  split.
  - unfold decrypt_segment. rewrite A. rewrite Nat.mul_comm, Nat.mod_mul by lia. cbn [Nat.eqb]. rewrite B, <- pads_len, firstn_all. apply unpad_pads.
  - unfold len. rewrite A. unfold round_up, round_down. pose proof (Nat.div_mod (length l) 16 ltac:(lia)). pose proof (Nat.mod_upper_bound (length l) 16 ltac:(lia)). lia.
Qed.

Lemma concat_bytes l : Forall (fun b => Forall is_byte b) l -> Forall is_byte (concat l).
Proof. induction l as [|b l IH]; intros F; [apply Forall_nil|]. inversion F; subst. cbn [concat]. apply Forall_app. split; [assumption | apply IH; assumption]. Qed.

Theorem aes128_ok E D iv pool l : cipher E D -> is_block iv ->
  Forall (fun b => b <> [] /\ Forall is_byte b /\ len b < 2 ^ 32 - 16 /\ room pool b) l ->
  exists o, aes128 E iv pool l = Ok o /\ decrypt_segment D iv o = Some (concat l) /\ len o = round_up (len (concat l)).
Proof.
  intros C Hi F. unfold aes128. rewrite (writes_ok E D pool C l (cbc_init iv)); [| unfold cbc_ok; cbn; lia | exact Hi | apply Forall_nil | exact F].
  rewrite update_final. cbn [cbc_init c_buf c_chain app]. eexists. split; [reflexivity|]. apply padded_decrypts; [exact C | exact Hi|].
  apply concat_bytes. eapply Forall_impl; [|exact F]. intros b H. apply H.
Qed.

(* ----- the buffers of MPEG-TS packets *)
Lemma buffers_concat s ps : forall cur, concat (buffers s cur ps) = cur ++ concat ps.
Proof.
  induction ps as [|p ps IH]; intros cur; cbn [buffers concat].
  - destruct cur; cbn [concat]; rewrite ?app_nil_r; reflexivity.
  - destruct (_ <=? s); [rewrite IH, <- app_assoc; reflexivity | cbn [concat]; rewrite IH; reflexivity].
Qed.
Lemma buffers_in s ps : forall cur, 188 <= s -> Forall (fun p => len p = 188) ps -> len cur mod 188 = 0 -> len cur <= s -> (cur = [] -> True) ->
  Forall (fun b => b <> [] /\ len b mod 188 = 0 /\ len b <= s) (buffers s cur ps).
Proof.
  induction ps as [|p ps IH]; intros cur S F M L _; cbn [buffers].
  - destruct cur as [|x cur]; [apply Forall_nil | apply Forall_cons; [|apply Forall_nil]]. split; [discriminate | split; assumption].
  - inversion F as [|? ? Lp F']; subst. destruct (len cur + len p <=? s) eqn:Q.
    + apply IH; [exact S | exact F' | | | trivial]; unfold len in *; rewrite app_length; lia.
    + apply Forall_cons; [|apply IH; [exact S | exact F' | lia | lia | trivial]]. split; [|split; assumption]. intros ->. unfold len in *. cbn [length] in Q. lia.
Qed.
Lemma buffers_bytes s ps : forall cur, Forall is_byte cur -> Forall (Forall is_byte) ps -> Forall (Forall is_byte) (buffers s cur ps).
Proof.
  induction ps as [|p ps IH]; intros cur H F; cbn [buffers].
  - destruct cur; [apply Forall_nil | apply Forall_cons; [exact H | apply Forall_nil]].
  - inversion F; subst. destruct (_ <=? s); [apply IH; [apply Forall_app; split; assumption | assumption] | apply Forall_cons; [exact H | apply IH; assumption]].
Qed.
(* a buffer that is full *)
Lemma buffers_full s ps : forall cur, 188 <= s -> s mod 188 = 0 -> Forall (fun p => len p = 188) ps -> len cur mod 188 = 0 -> len cur <= s ->
  s <= len (cur ++ concat ps) -> Exists (fun b => len b = s) (buffers s cur ps).
Proof.
  induction ps as [|p ps IH]; intros cur S SM F M L G; cbn [buffers concat] in *.
  - rewrite app_nil_r in G. destruct cur as [|x cur]; [unfold len in G; cbn [length] in G; lia|]. apply Exists_cons_hd. lia.
  - inversion F as [|? ? Lp F']; subst. destruct (len cur + len p <=? s) eqn:Q.
    + apply IH; [exact S | exact SM | exact F' | | | rewrite <- app_assoc; exact G]; unfold len in *; rewrite app_length; lia.
    + apply Exists_cons_hd. lia.
Qed.

Lemma writes_full E pool s : pool = Some s -> 0 <= s < 2 ^ 32 - 16 -> forall l st, Forall (fun b => len b <= s) l -> Exists (fun b => len b = s /\ b <> []) l ->
  s mod 16 = 0 -> cbc_writes E pool st l = Err \/ cbc_writes E pool st l = Ub.
Proof.
  intros -> Hs. induction l as [|b l IH]; intros st F X M; [inversion X|]. cbn [cbc_writes]. inversion F as [|? ? Lb F']; subst.
  destruct (cbc_write E (Some s) st b) as [[o st']| |] eqn:W; [|left; reflexivity|right; reflexivity]. cbn [bind fst snd].
  apply Exists_cons in X. destruct X as [[Xe Xn]|X].
  - exfalso. unfold cbc_write in W. rewrite Xe in W. assert (u32 s = s) as R by (unfold u32; apply Z.mod_small; lia). rewrite R in W.
    assert (0 < len b) by (unfold len; destruct b; [congruence | cbn [length]; lia]). assert (s <=? 0 = false) as R2 by lia. rewrite R2 in W.
    assert (s <? round_down (u32 (s + 16)) = true) as R3. { unfold u32. rewrite Z.mod_small by lia. unfold round_down. lia. } rewrite R3 in W. discriminate.
  - destruct (IH st' F' X M) as [-> | ->]; [left | right]; reflexivity.
Qed.
