(* SAMPLE-AES of NAL units. *)
From Coq Require Import ZArith List Bool Lia ZifyBool Arith.
From Verif Require Import Bytes HlsModel HlsSpec HlsProofs.
Import ListNotations.
Open Scope Z_scope.

(* ----- emulation prevention *)
Lemma escape_app a : forall z b, escape z (a ++ b) = (fst (escape z a) ++ fst (escape (snd (escape z a)) b), snd (escape (snd (escape z a)) b)).
Proof.
  induction a as [|x a IH]; intros z b; [cbn [escape fst snd app]; destruct (escape z b); reflexivity|]. cbn [app escape]. destruct (z <? 2).
  - rewrite IH. destruct (escape (if x =? 0 then z + 1 else 0) a) as [o z']. cbn [fst snd]. reflexivity.
  - rewrite IH. destruct (escape (if x =? 0 then 1 else 0) a) as [o z']. cbn [fst snd]. rewrite <- app_assoc. reflexivity.
Qed.
Lemma escape_zero l : forall z, 0 <= z <= 2 -> 0 <= snd (escape z l) <= 2.
Proof.
  induction l as [|x l IH]; intros z H; [exact H|]. cbn [escape]. destruct (z <? 2) eqn:Q.
  - specialize (IH (if x =? 0 then z + 1 else 0)). destruct (escape _ l). cbn [snd] in *. apply IH. destruct (x =? 0); lia.
  - specialize (IH (if x =? 0 then 1 else 0)). destruct (escape _ l). cbn [snd] in *. apply IH. destruct (x =? 0); lia.
Qed.
Lemma small3 x : is_byte x -> (Z.land x (Z.lnot 3) =? 0) = (x <=? 3).
Proof.
  intros H. unfold is_byte in H. assert (Z.land x (Z.lnot 3) = 4 * (x / 4)) as ->; [|lia].
  change 3 with (Z.ones 2). rewrite <- Z.ldiff_land. rewrite Z.ldiff_ones_r by lia. rewrite Z.shiftr_div_pow2, Z.shiftl_mul_pow2 by lia. change (2 ^ 2) with 4. lia.
Qed.
Lemma unescape_escape l : forall z, Forall is_byte l -> 0 <= z <= 2 -> unescape (Z.to_nat z) (fst (escape z l)) = l.
Proof.
  induction l as [|x l IH]; intros z F H; [reflexivity|]. inversion F as [|? ? B F']; subst. cbn [escape]. destruct (z <? 2) eqn:Q.
  - specialize (IH (if x =? 0 then z + 1 else 0) F' ltac:(destruct (x =? 0); lia)). destruct (escape (if x =? 0 then z + 1 else 0) l) as [o z']. cbn [fst] in *. cbn [unescape].
    assert ((2 <=? Z.to_nat z)%nat = false) as -> by lia. cbn [andb]. f_equal. etransitivity; [|exact IH]. f_equal. destruct (x =? 0); lia.
  - specialize (IH (if x =? 0 then 1 else 0) F' ltac:(destruct (x =? 0); lia)). destruct (escape (if x =? 0 then 1 else 0) l) as [o z']. cbn [fst] in *. rewrite small3 by exact B.
    assert (Z.to_nat z = 2%nat) as -> by lia. destruct (x <=? 3) eqn:L; cbn [app unescape].
    + change ((2 <=? 2)%nat && (3 =? 3)) with true. cbn iota. change ((2 <=? 0)%nat) with false. cbn [andb]. f_equal. etransitivity; [|exact IH]. f_equal. destruct (x =? 0); lia.
    + assert (x =? 3 = false) as -> by lia. rewrite andb_false_r. f_equal. assert (x =? 0 = false) as E0 by lia. rewrite E0 in *. exact IH.
Qed.
Lemma escape_len l : forall z, (length l <= length (fst (escape z l)))%nat.
Proof.
  induction l as [|x l IH]; intros z; [apply le_n|]. cbn [escape]. destruct (z <? 2).
  - specialize (IH (if x =? 0 then z + 1 else 0)). destruct (escape _ l). cbn [fst length] in *. lia.
  - specialize (IH (if x =? 0 then 1 else 0)). destruct (escape _ l). cbn [fst] in *. rewrite app_length. cbn [length]. lia.
Qed.
Lemma escape_hd l : hd 0 (fst (escape 0 l)) = hd 0 l.
Proof. destruct l as [|x l]; [reflexivity|]. cbn [escape]. change (0 <? 2) with true. cbn iota. destruct (escape _ l). reflexivity. Qed.
Lemma escape_last l : forall z, last (fst (escape z l)) 0 = last l 0.
Proof.
  induction l as [|x l IH]; intros z; [reflexivity|]. cbn [escape].
  assert (forall z', last (x :: fst (escape z' l)) 0 = last (x :: l) 0) as K.
  { intros z'. specialize (IH z'). pose proof (escape_len l z') as L. destruct l as [|y l]; [reflexivity|]. destruct (fst (escape z' (y :: l))) as [|a o] eqn:Q; [cbn [length] in L; lia|].
    change (last (x :: a :: o) 0) with (last (a :: o) 0). exact IH. }
  destruct (z <? 2).
  - specialize (K (if x =? 0 then z + 1 else 0)). destruct (escape _ l). cbn [fst] in *. exact K.
  - specialize (K (if x =? 0 then 1 else 0)). destruct (escape _ l). cbn [fst] in *. rewrite last_app_ne by discriminate. exact K.
Qed.

Fixpoint guarded (z : Z) (l : list Z) : Prop :=
  match l with [] => True | b :: l => (2 <= z -> 3 <= b) /\ guarded (if b =? 0 then z + 1 else 0) l end.
Lemma escape_guarded l : forall z, Forall is_byte l -> 0 <= z <= 2 -> guarded z (fst (escape z l)).
Proof.
  induction l as [|x l IH]; intros z F H; [exact I|]. inversion F as [|? ? B F']; subst. cbn [escape]. destruct (z <? 2) eqn:Q.
  - specialize (IH (if x =? 0 then z + 1 else 0) F' ltac:(destruct (x =? 0); lia)). destruct (escape (if x =? 0 then z + 1 else 0) l). cbn [fst guarded] in *. split; [lia | exact IH].
  - specialize (IH (if x =? 0 then 1 else 0) F' ltac:(destruct (x =? 0); lia)). destruct (escape (if x =? 0 then 1 else 0) l). cbn [fst] in *. rewrite small3 by exact B. destruct (x <=? 3) eqn:L; cbn [app guarded].
    + split; [lia|]. change (3 =? 0) with false. cbn iota. split; [lia | exact IH].
    + split; [lia|]. assert (x =? 0 = false) as E0 by lia. rewrite E0 in *. exact IH.
Qed.
Lemma guarded_none l : forall z, 0 <= z -> guarded z l -> no_start_code l.
Proof.
  assert (forall a z b c, 0 <= z -> guarded z (a ++ [0; 0; b] ++ c) -> 3 <= b) as K.
  { induction a as [|x a IH]; intros z b c H G.
    - cbn [app guarded] in G. change (0 =? 0) with true in G. cbn iota in G. destruct G as (_ & _ & G & _). lia.
    - cbn [app guarded] in G. destruct G as [_ G]. apply (IH _ b c) in G; [exact G | destruct (x =? 0); lia]. }
  intros z H G a b c ->. exact (K a z b c H G).
Qed.

(* ----- the encrypted blocks of a unit *)
Fixpoint enc (E : list Z -> list Z) (n : nat) (chain l : list Z) : list Z :=
  match n with
  | O => l
  | S n =>
      if (16 <? length l)%nat
      then let c := E (xor chain (firstn 16 l)) in c ++ firstn 144 (skipn 16 l) ++ enc E n c (skipn 160 l)
      else l
  end.
Lemma enc_enough E n : forall m ch l, (length l <= n)%nat -> (length l <= m)%nat -> enc E n ch l = enc E m ch l.
Proof.
  induction n as [|n IH]; intros m ch l Hn Hm.
  - destruct m; [reflexivity|]. cbn [enc]. assert ((16 <? length l)%nat = false) as -> by lia. reflexivity.
  - destruct m as [|m]; [cbn [enc]; assert ((16 <? length l)%nat = false) as -> by lia; reflexivity|]. cbn [enc]. destruct (16 <? length l)%nat eqn:Q; [|reflexivity].
    f_equal. f_equal. apply IH; rewrite skipn_length; lia.
Qed.
Definition enc_all E ch l := enc E (length l) ch l.
Lemma enc_step E ch l : (16 < length l)%nat -> let c := E (xor ch (firstn 16 l)) in
  enc_all E ch l = c ++ firstn 144 (skipn 16 l) ++ enc_all E c (skipn 160 l).
Proof.
  intros L c. unfold enc_all. destruct (length l) as [|n] eqn:Q; [lia|]. cbn [enc]. rewrite Q. assert ((16 <? S n)%nat = true) as -> by lia. f_equal. f_equal. apply enc_enough; rewrite skipn_length; lia.
Qed.
Lemma enc_short E ch l : (length l <= 16)%nat -> enc_all E ch l = l.
Proof. intros L. unfold enc_all. destruct (length l) as [|n] eqn:Q; [reflexivity|]. cbn [enc]. rewrite Q. assert ((16 <? S n)%nat = false) as -> by lia. reflexivity. Qed.

Section Cipher.
Variables E D : list Z -> list Z.
Hypothesis ED : cipher E D.

Lemma enc_facts : forall n ch l, (length l <= n)%nat -> is_block ch -> Forall is_byte l ->
  length (enc_all E ch l) = length l /\ Forall is_byte (enc_all E ch l) /\ (forall m, (length l <= m)%nat -> nal_blocks D m ch (enc_all E ch l) = l)
  /\ (l <> [] -> last (enc_all E ch l) 0 = last l 0).
Proof.
  induction n as [|n IH]; intros ch l Ln Hc Hl.
  - destruct l; [|cbn [length] in Ln; lia]. cbn. repeat split; try apply Forall_nil. intros [|m] _; reflexivity.
  - destruct (Nat.le_gt_cases (length l) 16) as [S|S].
    + rewrite enc_short by exact S. repeat split; [exact Hl|]. intros [|m] Lm; [reflexivity|]. cbn [nal_blocks]. assert ((16 <? length l)%nat = false) as -> by lia. reflexivity.
    + rewrite enc_step by exact S. set (c := E (xor ch (firstn 16 l))). cbv zeta.
      assert (is_block (firstn 16 l)) as Hb by (split; [rewrite firstn_length; lia | apply Forall_firstn; exact Hl]).
      destruct (ED (xor ch (firstn 16 l)) (xor_block _ _ Hc Hb)) as [[C1 C2] CD]. fold c in C1, C2, CD.
      destruct (IH c (skipn 160 l) ltac:(rewrite skipn_length; lia) (conj C1 C2) (Forall_skipn _ 160 l Hl)) as (I1 & I2 & I3 & I4).
      assert (l = firstn 16 l ++ firstn 144 (skipn 16 l) ++ skipn 160 l) as SP.
      { change 160%nat with (16 + 144)%nat. rewrite <- skipn_plus, firstn_skipn, firstn_skipn. reflexivity. }
      split; [rewrite !app_length, C1, I1, firstn_length, !skipn_length; lia|].
      split; [apply Forall_app; split; [exact C2 | apply Forall_app; split; [apply Forall_firstn, Forall_skipn; exact Hl | exact I2]]|].
      split.
      * intros [|m] Lm; [lia|]. cbn [nal_blocks]. set (t := firstn 144 (skipn 16 l)) in *. set (r := enc_all E c (skipn 160 l)) in *.
        assert ((16 <? length (c ++ t ++ r))%nat = true) as ->.
        { apply Nat.ltb_lt. rewrite !app_length, C1, I1. unfold t. rewrite firstn_length, !skipn_length. lia. }
        rewrite (firstn_le_app 16 c), (skipn_ge_app 16 c), (skipn_ge_app 160 c) by lia. rewrite C1. rewrite (firstn_all2 (n := 16) c) by lia. change (16 - 16)%nat with O. change (160 - 16)%nat with 144%nat. rewrite ?skipn_O.
        rewrite CD. rewrite xor_back by (destruct Hc as [-> _]; symmetry; apply Hb).
        destruct (Nat.le_gt_cases 144 (length (skipn 16 l))) as [G|G].
        -- assert (length t = 144%nat) as Lt by (unfold t; rewrite firstn_length; lia). rewrite firstn_ge_app, skipn_ge_app by lia. rewrite Lt. change (144 - 144)%nat with O. rewrite ?firstn_O, ?skipn_O. rewrite app_nil_r.
           rewrite I3 by (rewrite skipn_length in *; lia). symmetry. exact SP.
        -- assert (skipn 160 l = []) as R0 by (apply skipn_all2; rewrite skipn_length in G; lia). 
           assert (r = []) as Rr by (apply length_zero_iff_nil; rewrite I1, R0; reflexivity). rewrite Rr, app_nil_r.
           assert (length t <= 144)%nat as Lt by (unfold t; rewrite firstn_length; lia).
           rewrite (firstn_all2 t) by exact Lt. rewrite (skipn_all2 t) by exact Lt. rewrite SP at 2. rewrite R0. fold t. rewrite app_nil_r. destruct m; cbn [nal_blocks length Nat.ltb Nat.leb]; rewrite app_nil_r; reflexivity.
      * intros _. replace (last l 0) with (last (firstn 16 l ++ firstn 144 (skipn 16 l) ++ skipn 160 l) 0) by (f_equal; symmetry; exact SP). clear SP. assert (firstn 144 (skipn 16 l) <> []) as NT. { intros Q. apply (f_equal (@length Z)) in Q. rewrite firstn_length, skipn_length in Q. cbn [length] in Q. lia. }
        rewrite !app_assoc. clear I3 I2. destruct (skipn 160 l) as [|y r] eqn:R.
        -- rewrite (enc_short E c []) by (cbn; lia). rewrite !app_nil_r. rewrite !last_app_ne by exact NT. reflexivity.
        -- assert (enc_all E c (y :: r) <> []) as NE. { intros Q. rewrite Q in I1. discriminate. }
           rewrite (last_app_ne (c ++ _)) by exact NE. rewrite (last_app_ne (firstn 16 l ++ _)) by discriminate. apply I4. discriminate.
Qed.

(* ----- the state within a unit: [L] is what remains of it *)
Definition MAXOFF : Z := 2 ^ 32 - 1.
Definition rem (st : nal) (L : list Z) : list Z :=
  if n_next st =? MAXOFF then L
  else let d := Z.to_nat (n_next st - n_cur st) in
       firstn d L ++ enc_all E (c_chain (n_cbc st)) (c_buf (n_cbc st) ++ skipn d L).
Definition inv (st : nal) (L : list Z) : Prop :=
  n_encrypt st = true /\ 0 <= n_cur st /\ 0 <= n_zero st <= 2 /\ n_cur st + len L < 2 ^ 31 /\ n_max st = n_cur st + len L - 16
  /\ is_block (c_chain (n_cbc st)) /\ Forall is_byte (c_buf (n_cbc st))
  /\ (n_next st = MAXOFF
      \/ (0 <= n_next st < n_max st /\ n_cur st < n_next st + 16 /\ len (c_buf (n_cbc st)) = Z.max 0 (n_cur st - n_next st))).

Lemma update_small st l : (length (c_buf st) + length l < 16)%nat -> cbc_update E st l = ([], Cbc (c_chain st) (c_buf st ++ l)).
Proof. intros L. rewrite update_eq. rewrite app_length. rewrite Nat.div_small by exact L. reflexivity. Qed.
Lemma update_16 st l : (length (c_buf st) + length l = 16)%nat ->
  cbc_update E st l = (E (xor (c_chain st) (c_buf st ++ l)), Cbc (E (xor (c_chain st) (c_buf st ++ l))) []).
Proof.
  intros L. rewrite update_eq. rewrite app_length, L. change (16 / 16)%nat with 1%nat. cbn [blocks fst snd]. rewrite xors_xor, app_nil_r.
  rewrite firstn_all2 by (rewrite app_length; lia). rewrite skipn_all2 by (rewrite app_length; lia). reflexivity.
Qed.

Lemma loop_ok fuel : forall st b r, (length b <= fuel)%nat -> Forall is_byte (b ++ r) -> inv st (b ++ r) ->
  exists o st', body_loop E fuel (n_cur st + len b) st b = Ok (o, st') /\ inv st' r
    /\ fst (escape (n_zero st) (rem st (b ++ r))) = o ++ fst (escape (n_zero st') (rem st' r)).
Proof.
  induction fuel as [|fuel IH]; intros st b r Lf HB HI.
  - destruct b; [|cbn [length] in Lf; lia]. change (len []) with 0. rewrite Z.add_0_r. cbn [body_loop]. assert (negb (n_cur st <? n_cur st) = true) as -> by lia. exists [], st. repeat split; try apply HI.
  - cbn [body_loop]. pose proof HI as HI0. destruct HI as (I1 & I2 & I3 & I4 & I5 & I6 & I7 & I8).
    destruct (n_cur st <? n_cur st + len b) eqn:Q; cbn [negb].
    2:{ assert (b = []) as -> by (destruct b; [reflexivity | unfold len in Q; cbn [length] in Q; lia]). exists [], st. split; [reflexivity|]. split; [exact HI0 | reflexivity]. }
    assert (0 <= len b) as Lb0 by (unfold len; lia). assert (len (b ++ r) = len b + len r) as Lbr by (unfold len; rewrite app_length; lia). assert (0 <= len r) as Lr0 by (unfold len; lia).
    rewrite Lbr in *.
    destruct (n_cur st <? n_next st) eqn:CN.
    + (* clear *)
      set (k := Z.to_nat (Z.min (n_next st) (n_cur st + len b) - n_cur st)).
      assert (0 < Z.of_nat k <= len b) as Hk by (unfold k; lia).
      assert (k <= length b)%nat as Hk' by (unfold len in Hk; lia).
      assert (u32 (n_cur st + Z.of_nat k) = n_cur st + Z.of_nat k) as -> by (unfold u32; apply Z.mod_small; lia).
      set (st1 := Nal true (n_cur st + Z.of_nat k) (n_next st) (n_max st) (snd (escape (n_zero st) (firstn k b))) (n_cbc st)).
      assert (len (skipn k b) = len b - Z.of_nat k) as Ls by (unfold len in *; rewrite skipn_length; lia).
      assert (rem st (b ++ r) = firstn k b ++ rem st1 (skipn k b ++ r)) as RM.
      { unfold rem, st1. cbn [n_next n_cur n_cbc]. destruct (n_next st =? MAXOFF) eqn:QM; [rewrite app_assoc, firstn_skipn; reflexivity|].
        destruct I8 as [I8|(J1 & J2 & J3)]; [lia|].
        assert (Z.to_nat (n_next st - n_cur st) = k + Z.to_nat (n_next st - (n_cur st + Z.of_nat k)))%nat as -> by (unfold k; lia).
        rewrite firstn_plus. rewrite <- (skipn_plus (Z.to_nat (n_next st - (n_cur st + Z.of_nat k))) k). rewrite (firstn_le_app k b), (skipn_le_app k b) by exact Hk'. rewrite <- app_assoc. reflexivity. }
      assert (inv st1 (skipn k b ++ r)) as INV.
      { unfold inv, st1. cbn [n_encrypt n_cur n_zero n_next n_max n_cbc].
        assert (len (skipn k b ++ r) = len b + len r - Z.of_nat k) as -> by (unfold len in *; rewrite app_length; lia).
        split; [reflexivity|]. split; [lia|]. split; [apply escape_zero; exact I3|]. split; [lia|]. split; [lia|]. split; [exact I6|]. split; [exact I7|].
        destruct I8 as [I8|(J1 & J2 & J3)]; [left; exact I8|]. right. split; [exact J1|]. split; unfold k; lia. }
      destruct (IH st1 (skipn k b) r ltac:(rewrite skipn_length; lia) ltac:(rewrite <- skipn_le_app by exact Hk'; apply Forall_skipn; exact HB) INV) as (o & st' & W & INV' & EQ).
      assert (n_cur st1 + len (skipn k b) = n_cur st + len b) as EN by (unfold st1; cbn [n_cur]; lia). rewrite EN in W.
      exists (fst (escape (n_zero st) (firstn k b)) ++ o), st'.
      assert (escape (n_zero st) (firstn k b) = (fst (escape (n_zero st) (firstn k b)), snd (escape (n_zero st) (firstn k b)))) as -> by (destruct (escape _ _); reflexivity).
      cbn [fst snd]. fold st1. rewrite W. cbn [bind fst snd]. split; [reflexivity|]. split; [exact INV'|].
      rewrite RM, escape_app. cbn [fst]. unfold st1 in EQ at 1. cbn [n_zero] in EQ. rewrite EQ. rewrite app_assoc. reflexivity.
    + (* a block *)
      destruct I8 as [I8|(J1 & J2 & J3)]; [unfold MAXOFF in I8; lia|].
      assert (Z.max 0 (n_cur st - n_next st) = n_cur st - n_next st) as MX by lia. rewrite MX in J3.
      assert (u32 (n_next st + 16) = n_next st + 16) as -> by (unfold u32; apply Z.mod_small; lia).
      set (k := Z.to_nat (Z.min (n_next st + 16) (n_cur st + len b) - n_cur st)).
      assert (0 < Z.of_nat k <= len b) as Hk by (unfold k; lia).
      assert (k <= length b)%nat as Hk' by (unfold len in Hk; lia).
      assert (u32 (n_cur st + Z.of_nat k) = n_cur st + Z.of_nat k) as -> by (unfold u32; apply Z.mod_small; lia).
      assert (length (firstn k b) = k) as Lk by (rewrite firstn_length; lia).
      assert (len (skipn k b) = len b - Z.of_nat k) as Ls by (unfold len in *; rewrite skipn_length; lia).
      assert (len (skipn k b ++ r) = len b + len r - Z.of_nat k) as Lsr by (unfold len in *; rewrite app_length; lia).
      assert (Forall is_byte (firstn k b)) as Bk by (apply Forall_firstn; apply Forall_app in HB; apply HB).
      assert (Forall is_byte (skipn k b ++ r)) as Bs by (rewrite <- skipn_le_app by exact Hk'; apply Forall_skipn; exact HB).
      assert (b ++ r = firstn k b ++ skipn k b ++ r) as SP by (rewrite app_assoc, firstn_skipn; reflexivity).
      assert (rem st (b ++ r) = enc_all E (c_chain (n_cbc st)) (c_buf (n_cbc st) ++ b ++ r)) as RM0.
      { unfold rem. assert (n_next st =? MAXOFF = false) as -> by (unfold MAXOFF; lia). assert (Z.to_nat (n_next st - n_cur st) = O) as -> by lia. reflexivity. }
      assert (Z.of_nat (length (c_buf (n_cbc st))) = n_cur st - n_next st) as J3' by exact J3.
      destruct (Z.eq_dec (n_cur st + Z.of_nat k) (n_next st + 16)) as [F|F].
      * rewrite update_16 by (rewrite Lk; lia).
        assert (is_block (c_buf (n_cbc st) ++ firstn k b)) as HBL by (split; [rewrite app_length, Lk; lia | apply Forall_app; split; [exact I7 | exact Bk]]).
        destruct (ED _ (xor_block _ _ I6 HBL)) as [HC _]. 
        set (c := E (xor (c_chain (n_cbc st)) (c_buf (n_cbc st) ++ firstn k b))) in *.
        assert (len c = 16) as Lc by (unfold len; rewrite (proj1 HC); reflexivity). rewrite Lc. change (16 <? 16) with false. change (16 <=? 0) with false. cbn iota.
        assert (u32 (n_next st + 10 * 16) = n_next st + 160) as -> by (unfold u32; apply Z.mod_small; lia).
        set (next := if n_max st <=? n_next st + 160 then 2 ^ 32 - 1 else n_next st + 160).
        set (st1 := Nal true (n_cur st + Z.of_nat k) next (n_max st) (snd (escape (n_zero st) c)) (Cbc c [])).
        assert (inv st1 (skipn k b ++ r)) as INV.
        { unfold inv, st1. cbn [n_encrypt n_cur n_zero n_next n_max n_cbc c_chain c_buf]. rewrite Lsr.
          split; [reflexivity|]. split; [lia|]. split; [apply escape_zero; exact I3|]. split; [lia|]. split; [lia|]. split; [exact HC|]. split; [apply Forall_nil|].
          unfold next. destruct (n_max st <=? n_next st + 160) eqn:QN; [left; reflexivity|]. right. change (len []) with 0. lia. }
        assert (rem st (b ++ r) = c ++ rem st1 (skipn k b ++ r)) as RM.
        { rewrite RM0, SP. rewrite (app_assoc (c_buf (n_cbc st))). set (x := c_buf (n_cbc st) ++ firstn k b) in *. destruct HBL as [Lx _].
          rewrite enc_step by (rewrite app_length, Lx; unfold len in *; lia). rewrite firstn_le_app by lia. rewrite (firstn_all2 x) by lia. fold c.
          rewrite (skipn_ge_app 16 x), (skipn_ge_app 160 x) by lia. rewrite Lx. change (16 - 16)%nat with O. change (160 - 16)%nat with 144%nat. rewrite ?skipn_O. cbv zeta. fold c. f_equal.
          unfold rem, st1. cbn [n_next n_cur n_cbc c_chain c_buf app]. unfold next. destruct (n_max st <=? n_next st + 160) eqn:QN.
          - change (2 ^ 32 - 1 =? MAXOFF) with true. cbn iota. rewrite enc_short by (rewrite skipn_length; clear - Lsr I5 QN F; unfold len in *; lia). apply firstn_skipn.
          - assert (n_next st + 160 =? MAXOFF = false) as -> by (unfold MAXOFF; lia). assert (Z.to_nat (n_next st + 160 - (n_cur st + Z.of_nat k)) = 144%nat) as -> by lia. reflexivity. }
        destruct (IH st1 (skipn k b) r ltac:(rewrite skipn_length; lia) Bs INV) as (o & st' & W & INV' & EQ).
        assert (n_cur st1 + len (skipn k b) = n_cur st + len b) as EN by (unfold st1; cbn [n_cur]; lia). rewrite EN in W.
        exists (fst (escape (n_zero st) c) ++ o), st'.
        assert (escape (n_zero st) c = (fst (escape (n_zero st) c), snd (escape (n_zero st) c))) as -> by (destruct (escape _ _); reflexivity).
        cbn [fst snd]. fold st1. rewrite W. cbn [bind fst snd]. split; [reflexivity|]. split; [exact INV'|].
        rewrite RM, escape_app. cbn [fst]. unfold st1 in EQ at 1. cbn [n_zero] in EQ. rewrite EQ. rewrite app_assoc. reflexivity.
      * assert (n_cur st + Z.of_nat k < n_next st + 16) as FL by (unfold k in *; lia).
        rewrite update_small by (rewrite Lk; lia). change (len []) with 0. change (16 <? 0) with false. change (0 <=? 0) with true. cbn iota.
        set (st1 := Nal true (n_cur st + Z.of_nat k) (n_next st) (n_max st) (n_zero st) (Cbc (c_chain (n_cbc st)) (c_buf (n_cbc st) ++ firstn k b))).
        assert (inv st1 (skipn k b ++ r)) as INV.
        { unfold inv, st1. cbn [n_encrypt n_cur n_zero n_next n_max n_cbc c_chain c_buf]. rewrite Lsr.
          split; [reflexivity|]. split; [lia|]. split; [exact I3|]. split; [lia|]. split; [lia|]. split; [exact I6|]. split; [apply Forall_app; split; [exact I7 | exact Bk]|].
          right. split; [lia|]. split; [lia|]. unfold len. rewrite app_length, Lk. lia. }
        destruct (IH st1 (skipn k b) r ltac:(rewrite skipn_length; lia) Bs INV) as (o & st' & W & INV' & EQ).
        assert (n_cur st1 + len (skipn k b) = n_cur st + len b) as EN by (unfold st1; cbn [n_cur]; lia). rewrite EN in W.
        exists o, st'. split; [exact W|]. split; [exact INV'|]. rewrite <- EQ. unfold st1 at 1. cbn [n_zero]. f_equal. f_equal.
        rewrite RM0, SP. unfold rem, st1. cbn [n_next n_cur n_cbc c_chain c_buf]. assert (n_next st =? MAXOFF = false) as -> by (unfold MAXOFF; lia).
        assert (Z.to_nat (n_next st - (n_cur st + Z.of_nat k)) = O) as -> by lia. rewrite ?firstn_O, ?skipn_O; cbn [app]. rewrite <- app_assoc. reflexivity.
Qed.

(* a unit that is started *)
Lemma start_inv iv st u : is_block iv -> let t := Z.land (hd 0 u) 31 in t = 1 \/ t = 5 -> 48 < len u < 2 ^ 31 ->
  let st0 := start_nal iv st t (len u) in inv st0 u /\ n_zero st0 = 0 /\ rem st0 u = firstn 32 u ++ enc_all E iv (skipn 32 u).
Proof.
  intros Hi t T L. unfold start_nal. assert (negb ((t =? 1) || (t =? 5)) || (len u <=? 48) = false) as -> by lia. cbv zeta.
  assert (u32 (len u - 16) = len u - 16) as -> by (unfold u32; apply Z.mod_small; lia).
  split; [|split; [reflexivity|]].
  - unfold inv. cbn [n_encrypt n_cur n_zero n_next n_max n_cbc cbc_init c_chain c_buf]. split; [reflexivity|]. split; [lia|]. split; [lia|]. split; [lia|]. split; [lia|]. split; [exact Hi|]. split; [apply Forall_nil|]. right. change (len []) with 0. lia.
  - reflexivity.
Qed.

(* what a player reads *)
Lemma read_enc iv u : is_block iv -> Forall is_byte u -> let t := Z.land (hd 0 u) 31 in t = 1 \/ t = 5 -> 48 < len u ->
  let x := fst (escape 0 (firstn 32 u ++ enc_all E iv (skipn 32 u))) in
  read_nal D iv x = u /\ no_start_code x /\ last x 0 = last u 0.
Proof.
  intros Hi Hu t T L x.
  destruct (enc_facts (length (skipn 32 u)) iv (skipn 32 u) (le_n _) Hi (Forall_skipn _ 32 u Hu)) as (F1 & F2 & F3 & F4).
  set (y := firstn 32 u ++ enc_all E iv (skipn 32 u)) in *. unfold len in L.
  assert (length (firstn 32 u) = 32%nat) as L32 by (rewrite firstn_length; lia).
  assert (Forall is_byte y) as By by (apply Forall_app; split; [apply Forall_firstn; exact Hu | exact F2]).
  assert (length y = length u) as Ly by (unfold y; rewrite app_length, F1, L32, skipn_length; lia).
  assert (hd 0 y = hd 0 u) as Hy. { unfold y. destruct u as [|a u]; [cbn [length] in L; lia | reflexivity]. }
  split; [|split].
  - unfold read_nal, x. rewrite escape_hd, Hy. fold t. pose proof (escape_len y 0). 
    assert (((t =? 1) || (t =? 5)) && (48 <? Z.of_nat (length (fst (escape 0 y)))) = true) as -> by lia.
    pose proof (unescape_escape y 0 By ltac:(lia)) as UE. change (Z.to_nat 0) with O in UE. rewrite UE. cbv zeta. unfold y at 1 3. rewrite firstn_ge_app, skipn_ge_app by lia. rewrite L32. change (32 - 32)%nat with O. rewrite ?firstn_O, ?skipn_O. rewrite app_nil_r.
    rewrite F3 by (rewrite Ly, skipn_length; lia). apply firstn_skipn.
  - apply (guarded_none _ 0 (Z.le_refl 0)). apply escape_guarded; [exact By | lia].
  - unfold x. rewrite escape_last. unfold y. assert (skipn 32 u <> []) as NE. { intros Q. apply (f_equal (@length Z)) in Q. rewrite skipn_length in Q. cbn [length] in Q. lia. }
    rewrite last_app_ne by (intros Q; rewrite Q in F1; rewrite skipn_length in F1; cbn [length] in F1; lia). rewrite F4 by exact NE. rewrite <- (firstn_skipn 32 u) at 2. rewrite last_app_ne by exact NE. reflexivity.
Qed.
End Cipher.
