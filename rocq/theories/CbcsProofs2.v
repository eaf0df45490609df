(* The encryption of video with cbcs. *)
From Coq Require Import ZArith List Bool Lia ZifyBool Arith.
From Verif Require Import Bytes HlsModel HlsSpec HlsProofs HlsProofs2 HlsProofs3 HlsProofs4 CbcsModel CbcsSpec CbcsProofs.
Import ListNotations.
Open Scope Z_scope.

Lemma split_k (b R L S : list Z) k : b ++ R = L ++ S -> (k <= length b)%nat -> (k <= length L)%nat ->
  firstn k b = firstn k L /\ skipn k b ++ R = skipn k L ++ S.
Proof.
  revert b L. induction k as [|k IH]; intros b L H B C; [split; [reflexivity | exact H]|].
  destruct b as [|x b]; [cbn [length] in B; lia|]. destruct L as [|y L]; [cbn [length] in C; lia|]. cbn [app] in H. injection H as -> H.
  cbn [length] in B, C. destruct (IH b L H ltac:(lia) ltac:(lia)) as [H1 H2]. cbn [firstn skipn]. rewrite H1. split; [reflexivity | exact H2].
Qed.
Lemma cut_at (a x : list Z) n : length a = n -> firstn n (a ++ x) = a /\ skipn n (a ++ x) = x.
Proof. intros <-. split; [rewrite firstn_app, firstn_all, Nat.sub_diag; apply app_nil_r | rewrite skipn_app, skipn_all, Nat.sub_diag; reflexivity]. Qed.
Lemma take_len_size n : forall v b, take_len n v b = take_size n v b.
Proof. reflexivity. Qed.

Section Cipher.
Variables E D : list Z -> list Z.
Hypothesis ED : cipher E D.
Variable iv : list Z.
Hypothesis IV : is_block iv.
Variable cap : Z.
Hypothesis Hcap : 16 <= cap.
Variable slice : Z -> option bool.
Variable hdr : list Z -> option nat.
Variable nl : nat.
Hypothesis Hnl : (1 <= nl <= 4)%nat.
Variable mh : Z.
Hypothesis Hmh : 1 <= mh.

Notation gu := (good_unit slice hdr nl mh).
Notation short := (short_unit slice hdr).
Notation clear := (clear_size slice hdr).

(* ----- the encrypted form *)
Fixpoint penc (n : nat) (ch l : list Z) : list Z :=
  match n with
  | O => l
  | S n =>
      if (16 <=? length l)%nat
      then let c := E (xor ch (firstn 16 l)) in c ++ firstn 144 (skipn 16 l) ++ penc n c (skipn 160 l)
      else l
  end.
Lemma penc_more n : forall m ch l, (length l <= n)%nat -> (length l <= m)%nat -> penc n ch l = penc m ch l.
Proof.
  induction n as [|n IH]; intros m ch l A B.
  - destruct l; [|cbn [length] in A; lia]. destruct m; reflexivity.
  - destruct m as [|m]; [destruct l; [reflexivity | cbn [length] in B; lia]|]. cbn [penc]. destruct (16 <=? length l)%nat eqn:Q; [|reflexivity]. cbv zeta. f_equal. f_equal. apply IH; rewrite skipn_length; lia.
Qed.
Definition pe (ch l : list Z) : list Z := penc (length l) ch l.
Lemma pe_small ch l : (length l < 16)%nat -> pe ch l = l.
Proof. intros H. unfold pe. destruct (length l) as [|n] eqn:Q; [reflexivity|]. cbn [penc]. rewrite Q. assert ((16 <=? S n)%nat = false) as -> by lia. reflexivity. Qed.
Lemma pe_block ch l : (16 <= length l)%nat -> let c := E (xor ch (firstn 16 l)) in pe ch l = c ++ firstn 144 (skipn 16 l) ++ pe c (skipn 160 l).
Proof.
  intros H c. unfold pe at 1. destruct (length l) as [|n] eqn:Q; [lia|]. cbn [penc]. rewrite Q. assert ((16 <=? S n)%nat = true) as -> by lia. cbv zeta. fold c. unfold pe. f_equal. f_equal. apply penc_more; rewrite ?skipn_length; lia.
Qed.
Definition enc_unit (u : list Z) : list Z := firstn (clear u) u ++ pe iv (skipn (clear u) u).
Definition enc_units (us : list (list Z)) : list Z := flat_map (fun u => be nl (len u) ++ enc_unit u) us.
Lemma stored_cons u us : stored nl (u :: us) = be nl (len u) ++ u ++ stored nl us.
Proof. unfold stored. cbn [flat_map]. rewrite <- app_assoc. reflexivity. Qed.
Lemma enc_cons u us : enc_units (u :: us) = be nl (len u) ++ enc_unit u ++ enc_units us.
Proof. unfold enc_units. cbn [flat_map]. rewrite <- app_assoc. reflexivity. Qed.

Definition fsize (f : list (list Z)) : Z := len (stored nl f).
Definition good_frame (f : list (list Z)) : Prop := Forall gu f /\ fsize f < 2 ^ 31.
Definition lastb (d : bool) (us : list (list Z)) : bool := fold_left (fun _ u => short u) us d.
Lemma lastb_cons d u us : lastb d (u :: us) = lastb (short u) us.
Proof. reflexivity. Qed.

(* what follows the current unit *)
Definition rest (us : list (list Z)) (fs : list (list (list Z))) : list Z := stored nl us ++ concat (map (stored nl) fs).
Definition rest_enc (us : list (list Z)) (fs : list (list (list Z))) : list Z := enc_units us ++ concat (map enc_units fs).
Variable lb : bool.
Definition after (st : vid) (d : bool) (us : list (list Z)) (fs : list (list (list Z))) : Prop :=
  Forall gu us /\ v_left st = len (stored nl us) /\ v_left st < 2 ^ 31 /\ Forall good_frame fs /\ v_frames st = map fsize fs /\ lastb d (us ++ concat fs) = lb.

(* the remainder of a unit *)
Definition out_body (st : vid) (L : list Z) : list Z :=
  if v_next st =? 0 then L
  else let d := Z.to_nat (v_pkt st - v_next st) in firstn d L ++ pe (c_chain (v_cbc st)) (c_buf (v_cbc st) ++ skipn d L).
Definition body_inv (st : vid) (L : list Z) : Prop :=
  Forall is_byte L /\ len L = v_pkt st /\ v_pkt st < 2 ^ 31 /\
  (v_next st = 0 \/
   (16 <= v_next st < 2 ^ 31 /\ v_phase st = VEncrypt /\ cbc_good (v_cbc st)
    /\ (if v_pkt st <=? v_next st then Z.of_nat (length (c_buf (v_cbc st))) = v_next st - v_pkt st /\ (length (c_buf (v_cbc st)) < 16)%nat
        else c_buf (v_cbc st) = []))).

Inductive vtodo (st : vid) (R T : list Z) : Prop :=
  | TDone : R = [] -> w_buf (v_wb st) = None -> T = total (v_wb st) -> lb = false -> vtodo st R T
  | TStart u us fs : v_phase st = VSize -> v_left st = 0 -> v_len st = nl -> v_pkt st = 0 -> v_next st = 0 ->
      v_frames st = map fsize ((u :: us) :: fs) -> Forall good_frame ((u :: us) :: fs) -> lastb true ((u :: us) ++ concat fs) = lb ->
      R = stored nl (u :: us) ++ concat (map (stored nl) fs) -> T = total (v_wb st) ++ rest_enc (u :: us) fs -> vtodo st R T
  | TLen a hs u us fs : v_phase st = VSize -> a ++ hs = be nl (len u) -> hs <> [] -> v_len st = length hs -> v_pkt st = unbe a -> v_next st = 0 ->
      after st true (u :: us) fs -> R = hs ++ u ++ rest us fs -> T = total (v_wb st) ++ rest_enc (u :: us) fs -> vtodo st R T
  | TType u us fs : v_phase st = VType -> v_pkt st = len u -> v_next st = 0 -> gu u -> after st (short u) us fs ->
      R = u ++ rest us fs -> T = total (v_wb st) ++ rest_enc (u :: us) fs -> vtodo st R T
  | THdr j u us fs : v_phase st = VHeader -> v_hdr st = firstn j u -> (1 <= j < v_want st)%nat -> v_want st = Nat.min 128 (length u) -> (18 <= length u)%nat ->
      slice (hd 0 u) = Some true -> v_pkt st = len u - 1 -> v_next st = 0 -> gu u -> after st (short u) us fs ->
      R = skipn j u ++ rest us fs -> T = total (v_wb st) ++ skipn 1 (enc_unit u) ++ rest_enc us fs -> vtodo st R T
  | TBody L us fs : v_phase st = VEncrypt -> L <> [] -> body_inv st L -> after st false us fs ->
      R = L ++ rest us fs -> T = total (v_wb st) ++ out_body st L ++ rest_enc us fs -> vtodo st R T
  | TCopy L us fs d : v_phase st = VCopy -> v_next st = 0 -> body_inv st L -> after st d us fs -> (d = true <-> L = []) -> (L = [] -> dirty (v_wb st)) ->
      R = L ++ rest us fs -> T = total (v_wb st) ++ L ++ rest_enc us fs -> vtodo st R T.

Definition zz (st : vid) : nat := match v_phase st with VCopy => if v_pkt st =? 0 then 1%nat else 0%nat | _ => 0%nat end.
Definition stepgood (N : nat) (R T : list Z) (a : act) : Prop :=
  match a with
  | Go st b => wok cap (v_wb st) /\ vtodo st (b ++ R) T /\ (2 * length b + zz st < N)%nat
  | Return st => wok cap (v_wb st) /\ vtodo st R T
  end.

Lemma gu_pos u : gu u -> (1 <= length u)%nat.
Proof. intros (_ & H & _). lia. Qed.
Lemma stored_pos u us : gu u -> 0 < len (stored nl (u :: us)).
Proof. intros H. rewrite stored_cons. unfold len. rewrite !app_length, be_length. lia. Qed.
Lemma stored_nil us : Forall gu us -> len (stored nl us) <= 0 -> us = [].
Proof. intros F H. destruct us as [|u us]; [reflexivity|]. pose proof (stored_pos u us (Forall_inv F)). lia. Qed.

Lemma frames_next fs : Forall good_frame fs ->
  (next_frame (map fsize fs) = [] /\ concat (map (stored nl) fs) = [] /\ concat (map enc_units fs) = [] /\ concat fs = []) \/
  exists u us gs, next_frame (map fsize fs) = map fsize ((u :: us) :: gs) /\ Forall good_frame ((u :: us) :: gs)
    /\ concat (map (stored nl) fs) = stored nl (u :: us) ++ concat (map (stored nl) gs)
    /\ concat (map enc_units fs) = enc_units (u :: us) ++ concat (map enc_units gs) /\ concat fs = (u :: us) ++ concat gs.
Proof.
  induction fs as [|f fs IH]; intros H; [left; repeat split|]. cbn [map next_frame concat]. destruct f as [|u us].
  - change (fsize []) with 0. change (0 <? 0) with false. cbv iota. cbn [stored enc_units flat_map app]. apply IH. apply (Forall_inv_tail H).
  - pose proof (stored_pos u us (Forall_inv (proj1 (Forall_inv H)))) as P. fold (fsize (u :: us)) in P. assert (0 <? fsize (u :: us) = true) as -> by lia.
    right. exists u, us, fs. split; [reflexivity|]. split; [exact H|]. repeat split.
Qed.

(* the end of a unit *)
Lemma copy_ok st b L R T us fs d N :
  body_inv st L -> (v_phase st = VEncrypt \/ v_phase st = VCopy /\ v_next st = 0) -> (v_next st = 0 \/ v_next st < v_pkt st) -> after st d us fs -> (d = true -> L = [] /\ b <> []) -> wok cap (v_wb st) ->
  b ++ R = L ++ rest us fs -> T = total (v_wb st) ++ out_body st L ++ rest_enc us fs ->
  (2 * length b < N \/ (2 * length b <= N /\ b <> [] /\ L <> []))%nat ->
  stepgood N R T (v_copy cap nl st b).
Proof.
  intros (B1 & B2 & B3 & B4) PH NX (A1 & A2 & A3 & A4 & A5 & A6) DD W EQ HT HN. unfold v_copy.
  assert (0 <= v_next st) as N0 by lia. assert (0 <= len L) as L0 by (unfold len; lia).
  assert (u32 (v_pkt st - v_next st) = v_pkt st - v_next st) as -> by (unfold u32; apply Z.mod_small; lia).
  set (k := Z.to_nat (Z.min (v_pkt st - v_next st) (len b))).
  assert (k <= length b)%nat as K1 by (unfold k, len; lia). assert (k <= length L)%nat as K2 by (unfold k, len in *; lia).
  assert (b = [] \/ L = [] \/ 1 <= k)%nat as K3.
  { destruct b as [|b0 b1]; [left; reflexivity|]. destruct L as [|l0 l1]; [right; left; reflexivity|]. right; right. unfold k, len in *. cbn [length] in *. lia. }
  destruct (split_k b R L (rest us fs) k EQ K1 K2) as [S1 S2]. rewrite S1.
  destruct (w_write_ok cap (firstn k L) ltac:(lia) (v_wb st) W) as (W1 & W2 & _). set (w := w_write cap (v_wb st) (firstn k L)) in *. clearbody w.
  assert (2 * length (skipn k b) < N)%nat as HN'. { rewrite skipn_length. destruct HN as [HN|(HN & N1 & N2)]; [lia|]. destruct K3 as [K3|[K3|K3]]; [congruence | congruence | lia]. }
  destruct (0 <? v_pkt st - Z.of_nat k) eqn:Q.
  - (* more of the unit *)
    assert (d = false) as ->. { destruct d; [|reflexivity]. destruct (DD eq_refl) as [-> _]. unfold len in *. cbn [length] in *. lia. }
    assert (length (skipn k L) = length L - k)%nat as LL by apply skipn_length. assert (skipn k L <> []) as NE by (intros E0; rewrite E0 in LL; unfold len in *; cbn [length] in LL; lia).
    unfold stepgood. cbn [v_wb]. split; [exact W1|]. assert (firstn k L ++ out_body (Vid (v_frames st) (v_left st) (v_phase st) (v_len st) (v_pkt st - Z.of_nat k) (v_next st) (v_hdr st) (v_want st) (v_cbc st) w) (skipn k L) = out_body st L) as OB.
    { unfold out_body. cbn [v_next v_pkt v_cbc]. destruct (v_next st =? 0) eqn:Q0; [apply firstn_skipn|]. cbv zeta. rewrite skipn_plus, app_assoc, <- firstn_plus. 
      replace (k + Z.to_nat (v_pkt st - Z.of_nat k - v_next st))%nat with (Z.to_nat (v_pkt st - v_next st)) by lia. reflexivity. }
    assert (body_inv (Vid (v_frames st) (v_left st) (v_phase st) (v_len st) (v_pkt st - Z.of_nat k) (v_next st) (v_hdr st) (v_want st) (v_cbc st) w) (skipn k L)) as BI.
    { unfold body_inv. cbn [v_next v_pkt v_cbc v_phase]. split; [apply Forall_skipn; exact B1|]. split; [unfold len in *; lia|]. split; [lia|]. destruct B4 as [B4|(C1 & C2 & C3 & C4)]; [left; exact B4|]. right.
      split; [exact C1|]. split; [exact C2|]. split; [exact C3|]. assert (v_pkt st <=? v_next st = false) as X by lia. rewrite X in C4. destruct (v_pkt st - Z.of_nat k <=? v_next st) eqn:Q1; [|exact C4]. rewrite C4. cbn [length]. lia. }
    split.
    + destruct PH as [PH|[PH PN]].
      * apply (TBody _ _ _ (skipn k L) us fs); [exact PH | exact NE | exact BI | repeat split; assumption | exact S2 |]. cbn [v_wb]. rewrite W2, HT, <- OB, <- !app_assoc. reflexivity.
      * apply (TCopy _ _ _ (skipn k L) us fs false); [exact PH | exact PN | exact BI | repeat split; assumption | split; [discriminate | intros; contradiction] | intros; contradiction | exact S2 |].
        cbn [v_wb]. rewrite W2, HT. unfold out_body. rewrite PN. change (0 =? 0) with true. cbv iota. rewrite <- (firstn_skipn k L) at 1. rewrite <- !app_assoc. reflexivity.
    + unfold zz. cbn [v_phase v_pkt]. assert (v_pkt st - Z.of_nat k =? 0 = false) as -> by lia. destruct (v_phase st); lia.
  - (* all of it *)
    assert (v_next st = 0) as Z0 by (unfold k, len in *; lia). assert (k = length L) as KL by (unfold k, len in *; lia).
    rewrite KL, skipn_all in S2. cbn [app] in S2. assert (T = total w ++ rest_enc us fs) as HT'.
    { rewrite W2, HT. unfold out_body. rewrite Z0. change (0 =? 0) with true. cbv iota. rewrite KL, firstn_all. rewrite <- app_assoc. reflexivity. }
    rewrite <- KL in S2. rewrite Z0. destruct (0 <? v_left st) eqn:Q1.
    + destruct us as [|u us]; [cbn [stored flat_map] in A2; change (len []) with 0 in A2; lia|]. unfold stepgood. cbn [v_wb]. split; [exact W1|]. split; [|unfold zz; cbn [v_phase]; lia].
      apply (TLen _ _ _ [] (be nl (len u)) u us fs); cbn [v_phase v_len v_pkt v_next v_wb]; [reflexivity | reflexivity | | rewrite be_length; reflexivity | reflexivity | reflexivity | | | exact HT'].
      * intros E0. pose proof (be_length nl (len u)) as X. rewrite E0 in X. cbn [length] in X. lia.
      * split; [exact A1|]. split; [exact A2|]. split; [exact A3|]. split; [exact A4|]. split; [exact A5|]. rewrite <- A6. reflexivity.
      * rewrite S2. unfold rest. rewrite stored_cons, <- !app_assoc. reflexivity.
    + assert (us = []) as -> by (apply stored_nil; [exact A1 | lia]). unfold rest, rest_enc in S2, HT'. cbn [stored enc_units flat_map app] in S2, HT', A6. rewrite A5.
      destruct (frames_next fs A4) as [(F1 & F2 & F3 & F4)|(u & us & gs & F1 & F2 & F3 & F4 & F5)]; rewrite F1.
      * rewrite F2 in S2. apply app_eq_nil in S2. destruct S2 as [S2 ->]. unfold stepgood. cbn [v_wb]. split; [unfold wok, w_used, w_flush; cbn [w_buf]; lia|].
        apply TDone; cbn [v_wb]; [reflexivity | reflexivity | |].
        -- rewrite HT', F3, app_nil_r. unfold total, w_flush. cbn [w_sent w_buf]. rewrite app_nil_r. reflexivity.
        -- rewrite F4 in A6. cbn [lastb fold_left] in A6. rewrite <- A6. destruct d; [|reflexivity]. exfalso. destruct (DD eq_refl) as [-> NB]. cbn [length] in KL. rewrite KL in S2. cbn [skipn] in S2. contradiction.
      * assert (v_left st = 0) as VL by (rewrite A2; reflexivity). cbn [map]. unfold stepgood. cbn [v_wb]. split; [exact W1|]. split; [|unfold zz; cbn [v_phase]; lia].
        apply (TStart _ _ _ u us gs); cbn [v_phase v_left v_len v_pkt v_next v_frames v_wb]; [reflexivity | exact VL | reflexivity | reflexivity | reflexivity | reflexivity | exact F2 | rewrite <- A6, F5; reflexivity | rewrite S2, F3; reflexivity | rewrite HT', F4; reflexivity].
Qed.

Lemma next_block_cases n : 16 <= n -> next_block n = 0 /\ n < 176 \/ next_block n = n - 160 /\ 176 <= n.
Proof. intros H. unfold next_block. change ((10 + 1) * 16) with 176. change (10 * 16) with 160. destruct (176 <=? n) eqn:Q; [right | left]; lia. Qed.

(* after a block: the clear part, and the rest *)
Lemma after_block c B m n st : (length B = n - 16)%nat -> (16 <= n)%nat -> (m <= 144)%nat -> (m <= length B)%nat -> v_next st = next_block (Z.of_nat n) -> v_pkt st = Z.of_nat (n - 16 - m) -> v_cbc st = Cbc c [] ->
  firstn 144 B ++ pe c (skipn 144 B) = firstn m B ++ out_body st (skipn m B).
Proof.
  intros LB N16 M M2 NX PK CB. unfold out_body. rewrite NX, PK, CB. destruct (next_block_cases (Z.of_nat n) ltac:(lia)) as [[-> H]|[-> H]].
  - change (0 =? 0) with true. cbv iota. rewrite pe_small by (rewrite skipn_length; lia). rewrite !firstn_skipn. reflexivity.
  - assert (Z.of_nat n - 160 =? 0 = false) as -> by lia. cbv zeta. cbn [c_chain c_buf app]. rewrite app_assoc, <- firstn_plus, skipn_plus. replace (m + Z.to_nat (Z.of_nat (n - 16 - m) - (Z.of_nat n - 160)))%nat with 144%nat by lia. reflexivity.
Qed.

Lemma encrypt_ok st b L R T us fs N :
  body_inv st L -> v_phase st = VEncrypt -> after st false us fs -> wok cap (v_wb st) ->
  b ++ R = L ++ rest us fs -> T = total (v_wb st) ++ out_body st L ++ rest_enc us fs ->
  (2 * length b < N \/ (2 * length b <= N /\ b <> [] /\ L <> []))%nat ->
  exists a, v_encrypt E cap nl st b = Ok a /\ stepgood N R T a.
Proof.
  intros BI PH AF W EQ HT HN. unfold v_encrypt. pose proof BI as BI0. destruct BI0 as (B1 & B2 & B3 & B4). assert (0 <= len L) as L0 by (unfold len; lia).
  destruct ((0 <? v_pkt st) && (v_pkt st <=? v_next st)) eqn:Q.
  2:{ eexists. split; [reflexivity|]. apply (copy_ok st b L R T us fs false); try assumption; [left; exact PH | | discriminate].
      destruct B4 as [B4|(C1 & _ & _ & C4)]; [left; exact B4|]. destruct (v_pkt st <=? v_next st) eqn:Q1; [lia | right; lia]. }
  destruct B4 as [B4|(C1 & _ & C3 & C4)]; [lia|]. assert (v_pkt st <=? v_next st = true) as X by lia. rewrite X in C4. destruct C4 as [C4 C5].
  assert (u32 (v_next st - 16) = v_next st - 16) as -> by (unfold u32; apply Z.mod_small; lia).
  assert (u32 (v_pkt st - (v_next st - 16)) = v_pkt st - (v_next st - 16)) as -> by (unfold u32; apply Z.mod_small; lia).
  set (k := Z.to_nat (Z.min (v_pkt st - (v_next st - 16)) (len b))).
  assert (k <= length b)%nat as K1 by (unfold k, len; lia). assert (k <= length L)%nat as K2 by (unfold k, len in *; lia).
  destruct (split_k b R L (rest us fs) k EQ K1 K2) as [S1 S2]. rewrite S1.
  assert (length (firstn k L) = k) as LK by (rewrite firstn_length; lia). assert (k + length (c_buf (v_cbc st)) <= 16)%nat as K16 by (unfold k, len in *; lia).
  destruct (write_enc_ok E D ED cap Hcap (v_wb st) (v_cbc st) (firstn k L) C3 C5 (Forall_firstn _ _ _ B1) W ltac:(unfold len; rewrite LK; lia)) as (w & WE & W1 & W2).
  rewrite WE. cbn [bind fst snd]. assert (1 <= k \/ b = [])%nat as K3. { destruct b; [right; reflexivity | left; unfold k, len in *; cbn [length] in *; lia]. }
  assert (2 * length (skipn k b) < N)%nat as HN'. { rewrite skipn_length. destruct HN as [HN|(HN & N1 & N2)]; [lia|]. destruct K3 as [K3|K3]; [lia | congruence]. }
  assert (length (skipn k L) = length L - k)%nat as LS by apply skipn_length.
  assert (out_body st L = pe (c_chain (v_cbc st)) (c_buf (v_cbc st) ++ L)) as OB.
  { unfold out_body. assert (v_next st =? 0 = false) as -> by lia. cbv zeta. replace (Z.to_nat (v_pkt st - v_next st)) with O by lia. reflexivity. }
  destruct (v_next st - 16 <? v_pkt st - Z.of_nat k) eqn:Q1.
  - (* not a whole block *)
    assert (length (c_buf (v_cbc st)) + length (firstn k L) < 16)%nat as SM by lia. rewrite (update_small E (v_cbc st) (firstn k L) SM) in *. cbn [fst snd] in *. rewrite app_nil_r in W2.
    eexists. split; [reflexivity|]. unfold stepgood. cbn [v_wb]. split; [exact W1|]. split; [|unfold zz; cbn [v_phase]; rewrite PH; lia].
    apply (TBody _ _ _ (skipn k L) us fs); [exact PH | | | exact AF | exact S2 |].
    + intros E0. rewrite E0 in LS. unfold len in *. cbn [length] in LS. lia.
    + unfold body_inv. cbn [v_next v_pkt v_cbc v_phase c_buf]. split; [apply Forall_skipn; exact B1|]. split; [unfold len in *; lia|]. split; [lia|]. right. split; [exact C1|]. split; [exact PH|].
      split; [split; [exact (proj1 C3) | cbn [c_buf]; apply Forall_app; split; [exact (proj2 C3) | apply Forall_firstn; exact B1]]|]. assert (v_pkt st - Z.of_nat k <=? v_next st = true) as -> by lia. rewrite app_length. lia.
    + cbn [v_wb]. rewrite W2, HT, OB. f_equal. f_equal. unfold out_body. cbn [v_next v_pkt v_cbc c_chain c_buf]. assert (v_next st =? 0 = false) as -> by lia. cbv zeta.
      replace (Z.to_nat (v_pkt st - Z.of_nat k - v_next st)) with O by lia. cbn [firstn skipn app]. rewrite <- app_assoc, firstn_skipn. reflexivity.
  - (* the block is complete *)
    assert (length (c_buf (v_cbc st)) + length (firstn k L) = 16)%nat as SM by (unfold len in *; lia). pose proof (update_good E D ED (v_cbc st) (firstn k L) C3 (Forall_firstn _ _ _ B1)) as UG. rewrite (update_16 E (v_cbc st) (firstn k L) SM) in *. cbn [fst snd] in *.
    set (c := E (xor (c_chain (v_cbc st)) (c_buf (v_cbc st) ++ firstn k L))) in *.
    assert (Z.of_nat k = v_pkt st - (v_next st - 16)) as KK by (unfold len in *; lia).
    assert (firstn 16 (c_buf (v_cbc st) ++ L) = c_buf (v_cbc st) ++ firstn k L) as F16.
    { rewrite firstn_app. rewrite firstn_all2 by lia. f_equal. f_equal. lia. }
    assert (forall i, (16 <= i)%nat -> skipn i (c_buf (v_cbc st) ++ L) = skipn (i - 16) (skipn k L)) as F17.
    { intros i Hi. rewrite skipn_plus. rewrite skipn_app. rewrite skipn_all2 by lia. cbn [app]. f_equal. lia. }
    pose proof (pe_block (c_chain (v_cbc st)) (c_buf (v_cbc st) ++ L) ltac:(rewrite app_length; unfold len in *; lia)) as PB. cbv zeta in PB. rewrite F16 in PB. fold c in PB. rewrite (F17 16%nat ltac:(lia)), (F17 160%nat ltac:(lia)) in PB. change (16 - 16)%nat with O in PB. change (160 - 16)%nat with 144%nat in PB. rewrite skipn_O in PB.
    eexists. split; [reflexivity|]. set (st' := Vid _ _ _ _ _ _ _ _ _ _). 
    pose proof (after_block c (skipn k L) 0 (Z.to_nat (v_next st)) st' ltac:(rewrite LS; unfold len in *; lia) ltac:(lia) ltac:(lia) ltac:(lia) ltac:(unfold st'; cbn [v_next]; rewrite Z2Nat.id by lia; reflexivity) ltac:(unfold st'; cbn [v_pkt]; lia) eq_refl) as AB.
    rewrite firstn_O, skipn_O in AB. cbn [app] in AB.
    apply (copy_ok st' (skipn k b) (skipn k L) R T us fs false).
    + unfold body_inv, st'. cbn [v_next v_pkt v_cbc v_phase c_buf]. split; [apply Forall_skipn; exact B1|]. split; [unfold len in *; lia|]. split; [lia|]. destruct (next_block_cases (v_next st) ltac:(lia)) as [[NB ?]|[NB ?]]; rewrite NB; [left; reflexivity | right].
      split; [lia|]. split; [exact PH|]. split; [exact UG|]. assert (v_pkt st - Z.of_nat k <=? v_next st - 160 = false) as -> by lia. reflexivity.
    + left. exact PH.
    + unfold st'. cbn [v_next v_pkt]. destruct (next_block_cases (v_next st) ltac:(lia)) as [[-> ?]|[-> ?]]; [left; reflexivity | right; lia].
    + exact AF.
    + discriminate.
    + exact W1.
    + exact S2.
    + rewrite HT, OB, PB, AB. unfold st' at 2. cbn [v_wb]. rewrite W2, <- !app_assoc. reflexivity.
    + left. exact HN'.
Qed.

Lemma clear_pos u : gu u -> (1 <= clear u)%nat.
Proof.
  intros G. pose proof (gu_pos u G) as P. destruct G as (_ & _ & _ & b & S & H). unfold clear_size. rewrite S. destruct b; [|exact P]. destruct (hdr (firstn 128 u)) as [h|]; [|exact P].
  destruct ((18 <=? length u)%nat && (16 <=? length u - h)%nat) eqn:Q; [|exact P]. destruct (H eq_refl ltac:(lia)) as (h' & H1 & H2). injection H1 as ->. lia.
Qed.
Lemma enc_clear u : clear u = length u -> enc_unit u = u.
Proof. intros H. unfold enc_unit. rewrite H, firstn_all, skipn_all. apply app_nil_r. Qed.

Lemma header_ok st b j u us fs R T N :
  v_hdr st = firstn j u -> (1 <= j <= v_want st)%nat -> v_want st = Nat.min 128 (length u) -> (18 <= length u)%nat ->
  slice (hd 0 u) = Some true -> v_pkt st = len u - 1 -> v_next st = 0 -> gu u -> after st (short u) us fs -> wok cap (v_wb st) ->
  b ++ R = skipn j u ++ rest us fs -> T = total (v_wb st) ++ skipn 1 (enc_unit u) ++ rest_enc us fs ->
  (2 * length b + 1 < N \/ (2 * length b <= N /\ b <> [] /\ j < v_want st))%nat ->
  exists a, v_header E hdr iv cap nl st b = Ok a /\ stepgood N R T a.
Proof.
  intros HH J WN U18 SL PK NX G AF W EQ HT HN. unfold v_header. pose proof G as G0. destruct G0 as (G1 & G2 & G3 & bb & G4 & G5). rewrite SL in G4. injection G4 as <-.
  destruct (G5 eq_refl U18) as (h0 & H1 & H2). clear G5.
  assert (length (firstn j u) = j) as LJ by (rewrite firstn_length; lia). rewrite HH, LJ. set (k := Nat.min (v_want st - j) (length b)).
  assert (k <= length b)%nat as K1 by (unfold k; lia). assert (k <= length (skipn j u))%nat as K2 by (rewrite skipn_length; unfold k; lia).
  destruct (split_k b R (skipn j u) (rest us fs) k EQ K1 K2) as [S1 S2]. rewrite S1, <- firstn_plus. rewrite skipn_plus in S2.
  assert (length (firstn (j + k) u) = j + k)%nat as LH by (rewrite firstn_length; unfold k; lia). rewrite LH.
  assert (2 * length (skipn k b) + 1 < N)%nat as HN'. { rewrite skipn_length. destruct HN as [HN|(HN & N1 & N2)]; [lia|]. destruct b; [congruence|]. unfold k. cbn [length] in *. lia. }
  destruct (j + k <? v_want st)%nat eqn:Q.
  - eexists. split; [reflexivity|]. unfold stepgood. cbn [v_wb]. split; [exact W|]. split; [|unfold zz; cbn [v_phase]; lia].
    apply (THdr _ _ _ (j + k)%nat u us fs); cbn [v_phase v_hdr v_want v_pkt v_next v_wb]; try assumption; [reflexivity | reflexivity | lia].
  - assert (j + k = v_want st)%nat as JK by (unfold k in *; lia). rewrite JK in *. rewrite WN in *. set (want := Nat.min 128 (length u)) in *.
    assert (firstn want u = firstn 128 u) as FW. { unfold want. destruct (Nat.le_gt_cases (length u) 128); [rewrite Nat.min_r by lia; rewrite firstn_all, firstn_all2 by lia; reflexivity | rewrite Nat.min_l by lia; reflexivity]. }
    rewrite FW, H1. rewrite <- FW in H2. rewrite LH in H2. rewrite <- FW. assert ((want <? h0)%nat = false) as -> by lia. cbv zeta.
    assert (len (skipn 1 (firstn want u)) = Z.of_nat want - 1) as LD by (unfold len; rewrite skipn_length, LH; lia). rewrite LD.
    assert (u32 (v_pkt st - Z.of_nat (h0 - 1)) = len u - Z.of_nat h0) as -> by (rewrite PK; unfold u32, len in *; rewrite Z.mod_small; lia).
    assert (clear u = if (16 <=? length u - h0)%nat then h0 else length u) as CL. { unfold clear_size. rewrite SL, H1. assert ((18 <=? length u)%nat = true) as -> by lia. reflexivity. }
    destruct (len u - Z.of_nat h0 <? 16) eqn:Q1.
    + (* nothing to encrypt *)
      assert ((16 <=? length u - h0)%nat = false) as X by (unfold len in *; lia). rewrite X in CL.
      destruct (w_write_ok cap (skipn 1 (firstn want u)) ltac:(lia) (v_wb st) W) as (W1 & W2 & W3). eexists. split; [reflexivity|]. unfold stepgood. cbn [v_wb]. split; [exact W1|]. split; [|unfold zz; cbn [v_phase v_pkt]; destruct (_ =? 0); lia].
      assert (short u = (length u <=? 128)%nat) as SU. { unfold short_unit. rewrite SL, H1. assert ((length u =? 1)%nat = false) as -> by lia. assert ((18 <=? length u)%nat = true) as -> by lia. assert ((length u - h0 <? 16)%nat = true) as -> by lia. cbn [orb andb]. apply andb_true_r. }
      apply (TCopy _ _ _ (skipn want u) us fs (short u)); cbn [v_phase v_pkt v_next v_wb].
      * reflexivity.
      * exact NX.
      * unfold body_inv. cbn [v_pkt v_next]. split; [apply Forall_skipn; exact G1|]. split; [unfold len in *; rewrite skipn_length; unfold want in *; lia|]. split; [unfold len in *; lia | left; exact NX].
      * exact AF.
      * rewrite SU. split; intros Y; [apply skipn_all2; unfold want; lia | apply (f_equal (@length Z)) in Y; rewrite skipn_length in Y; unfold want in Y; cbn [length] in Y; lia].
      * intros _. apply W3. left. intros Y. rewrite Y in LD. change (len []) with 0 in LD. unfold want in *. lia.
      * exact S2.
      * rewrite W2, HT, (enc_clear u CL), <- !app_assoc. f_equal. rewrite !app_assoc. f_equal. rewrite <- (firstn_skipn want u) at 1. rewrite skipn_app, LH. rewrite (proj2 (Nat.sub_0_le 1 want)) by (unfold want; lia). rewrite skipn_O. reflexivity.
    + (* the first block *)
      assert ((16 <=? length u - h0)%nat = true) as X by (unfold len in *; lia). rewrite X in CL.
      set (d := skipn 1 (firstn want u)) in *. assert (short u = false) as SU. { unfold short_unit. rewrite SL, H1. assert ((length u =? 1)%nat = false) as -> by lia. assert ((length u - h0 <? 16)%nat = false) as -> by lia. cbn [orb]. apply andb_false_r. } rewrite SU in AF.
      assert (skipn (h0 - 1) d = firstn (want - h0) (skipn h0 u)) as ED'. { unfold d. rewrite skipn_plus. replace (1 + (h0 - 1))%nat with h0 by lia. rewrite skipn_firstn_comm. reflexivity. }
      assert (skipn 1 (firstn h0 u) = firstn (h0 - 1) d) as EH. { unfold d. rewrite !skipn_firstn_comm. rewrite firstn_firstn. f_equal. lia. }
      destruct (w_write_ok cap (firstn (h0 - 1) d) ltac:(lia) (v_wb st) W) as (W1 & W2 & _). set (w1 := w_write cap (v_wb st) (firstn (h0 - 1) d)) in *. clearbody w1.
      rewrite ED'. set (body := skipn h0 u) in *. assert (length body = length u - h0)%nat as LBd by apply skipn_length. assert (Forall is_byte body) as BB by (apply Forall_skipn; exact G1).
      rewrite firstn_firstn. set (e16 := firstn (Nat.min 16 (want - h0)) body). assert (length e16 = Nat.min 16 (want - h0)) as LE by (unfold e16; rewrite firstn_length, LBd; unfold want in *; lia).
      assert (cbc_good (cbc_init iv)) as CG by (split; [exact IV | constructor]).
      destruct (write_enc_ok E D ED cap Hcap w1 (cbc_init iv) e16 CG ltac:(cbn [cbc_init c_buf length]; lia) (Forall_firstn _ _ _ BB) W1 ltac:(unfold len; rewrite LE; lia)) as (w2 & WE & W3 & W4). rewrite WE. cbn [bind fst snd].
      assert (T = total w1 ++ pe iv body ++ rest_enc us fs) as HT1.
      { rewrite HT, W2, <- !app_assoc. f_equal. unfold enc_unit. rewrite CL. fold body. rewrite skipn_app. rewrite firstn_length. rewrite (proj2 (Nat.sub_0_le 1 (Nat.min h0 (length u)))) by lia. rewrite skipn_O, EH, <- app_assoc. reflexivity. }
      assert (length (firstn (want - h0) body) = want - h0)%nat as LE2 by (rewrite firstn_length, LBd; unfold want in *; lia). rewrite LE2.
      assert (v_pkt st - (Z.of_nat want - 1) = len (skipn want u)) as PK2 by (unfold len in *; rewrite skipn_length; unfold want in *; lia).
      assert (v_pkt st - Z.of_nat (h0 - 1) = Z.of_nat (length body)) as PK3 by (unfold len in *; lia).
      assert (skipn want u = skipn (want - h0) body) as SW. { unfold body. rewrite skipn_plus. f_equal. lia. }
      rewrite PK2, PK3. destruct (16 <=? want - h0)%nat eqn:Q2.
      * (* a whole block in the first bytes *)
        assert (length (c_buf (cbc_init iv)) + length e16 = 16)%nat as L16 by (cbn [cbc_init c_buf length]; lia). pose proof (update_good E D ED (cbc_init iv) e16 CG (Forall_firstn _ _ _ BB)) as UG. rewrite (update_16 E (cbc_init iv) e16 L16) in *. cbn [fst snd] in *.
        change (c_chain (cbc_init iv)) with iv in *. change (c_buf (cbc_init iv)) with (@nil Z) in *. cbn [app] in *. unfold e16 in *. rewrite Nat.min_l in * by lia. set (c := E (xor iv (firstn 16 body))) in *.
        destruct (w_write_ok cap (skipn 16 (firstn (want - h0) body)) ltac:(lia) w2 W3) as (W5 & W6 & _). set (w3 := w_write cap w2 (skipn 16 (firstn (want - h0) body))) in *. clearbody w3.
        set (st' := Vid _ _ _ _ _ _ _ _ _ _). set (B := skipn 16 body). set (m := (want - h0 - 16)%nat).
        assert (skipn 16 (firstn (want - h0) body) = firstn m B) as EM. { rewrite skipn_firstn_comm. reflexivity. }
        assert (skipn want u = skipn m B) as SM. { rewrite SW. unfold B, m. rewrite skipn_plus. f_equal. lia. }
        pose proof (after_block c B m (length body) st' ltac:(unfold B; rewrite skipn_length; lia) ltac:(lia) ltac:(unfold m, want in *; lia) ltac:(unfold B, m; rewrite skipn_length; unfold want in *; lia) eq_refl ltac:(unfold st'; cbn [v_pkt]; unfold len; rewrite SW, skipn_length; f_equal; unfold m; lia) eq_refl) as AB.
        pose proof (pe_block iv body ltac:(lia)) as PB. cbv zeta in PB. fold c in PB. fold B in PB. replace (skipn 160 body) with (skipn 144 B) in PB by (unfold B; rewrite skipn_plus; reflexivity). rewrite AB in PB.
        apply (encrypt_ok st' (skipn k b) (skipn want u) R T us fs N); [| reflexivity | exact AF | exact W5 | exact S2 | | left; lia].
        -- unfold body_inv, st'. cbn [v_next v_pkt v_cbc v_phase c_buf]. split; [apply Forall_skipn; exact G1|]. split; [reflexivity|]. split; [unfold len in *; rewrite skipn_length; lia|]. destruct (next_block_cases (Z.of_nat (length body)) ltac:(lia)) as [[NB ?]|[NB ?]]; rewrite NB; [left; reflexivity | right].
           split; [lia|]. split; [reflexivity|]. split; [exact UG|]. assert (len (skipn want u) <=? Z.of_nat (length body) - 160 = false) as -> by (unfold len; rewrite SW, skipn_length; unfold want in *; lia). reflexivity.
        -- unfold st' at 1. cbn [v_wb]. rewrite W6, W4, EM, HT1, PB, SM, <- !app_assoc. reflexivity.
      * (* the block is not complete *)
        assert (length (c_buf (cbc_init iv)) + length e16 < 16)%nat as L16 by (cbn [cbc_init c_buf length]; lia). rewrite (update_small E (cbc_init iv) e16 L16) in *. cbn [fst snd] in *. rewrite app_nil_r in W4.
        change (c_chain (cbc_init iv)) with iv in *. change (c_buf (cbc_init iv)) with (@nil Z) in *. cbn [app] in *. unfold e16 in *. rewrite Nat.min_r in * by lia.
        apply (encrypt_ok _ (skipn k b) (skipn want u) R T us fs N); [| reflexivity | exact AF | exact W3 | exact S2 | | left; lia].
        -- unfold body_inv. cbn [v_next v_pkt v_cbc v_phase c_buf]. split; [apply Forall_skipn; exact G1|]. split; [reflexivity|]. split; [unfold len in *; rewrite skipn_length; lia|]. right. split; [unfold len in *; lia|]. split; [reflexivity|].
           split; [split; [exact IV | cbn [c_buf]; apply Forall_firstn; exact BB]|]. assert (len (skipn want u) <=? Z.of_nat (length body) = true) as -> by (unfold len; rewrite SW, skipn_length; lia). rewrite LE. unfold len. rewrite SW, skipn_length. unfold want in *. lia.
        -- cbn [v_wb]. rewrite W4, HT1. f_equal. f_equal. unfold out_body. cbn [v_next v_pkt v_cbc c_chain c_buf]. assert (Z.of_nat (length body) =? 0 = false) as -> by lia. cbv zeta.
           assert (Z.to_nat (len (skipn want u) - Z.of_nat (length body)) = O) as -> by (unfold len; rewrite SW, skipn_length; lia). rewrite firstn_O, skipn_O. cbn [app]. rewrite SW, firstn_skipn. reflexivity.
Qed.

Lemma short_clear u : gu u -> (slice (hd 0 u) = Some false \/ (length u < 18)%nat) -> enc_unit u = u /\ short u = (length u =? 1)%nat.
Proof.
  intros G H. split.
  - apply enc_clear. unfold clear_size. destruct H as [->|H]; [reflexivity|]. destruct (slice (hd 0 u)) as [[]|]; try reflexivity. destruct (hdr (firstn 128 u)); [|reflexivity]. assert ((18 <=? length u)%nat = false) as -> by lia. reflexivity.
  - unfold short_unit. destruct H as [->|H]; [apply orb_false_r|]. destruct (slice (hd 0 u)) as [[]|]; try apply orb_false_r. destruct (hdr (firstn 128 u)); [|apply orb_false_r]. assert ((18 <=? length u)%nat = false) as -> by lia. apply orb_false_r.
Qed.

Lemma type_ok st b u us fs R T N : b <> [] -> v_pkt st = len u -> v_next st = 0 -> gu u -> after st (short u) us fs -> wok cap (v_wb st) ->
  b ++ R = u ++ rest us fs -> T = total (v_wb st) ++ rest_enc (u :: us) fs -> (2 * length b <= N)%nat ->
  exists a, v_type E slice hdr iv cap nl st b = Ok a /\ stepgood N R T a.
Proof.
  intros NB PK NX G AF W EQ HT HN. unfold v_type. pose proof (gu_pos u G) as UP. destruct b as [|t b]; [congruence|]. destruct u as [|t' u']; [cbn [length] in UP; lia|].
  cbn [app] in EQ. injection EQ as -> EQ. set (u := t' :: u') in *. change (hd 0 (t' :: b)) with t'. change (skipn 1 (t' :: b)) with b. rewrite PK.
  destruct (w_add_ok cap (v_wb st) (Z.of_nat nl + 1) (be nl (len u) ++ [t']) ltac:(lia) ltac:(unfold len; rewrite app_length, be_length; cbn [length]; lia) W ltac:(lia)) as (w & WA & W1 & W2 & W3). rewrite WA. cbn [bind].
  assert (T = total w ++ skipn 1 (enc_unit u) ++ rest_enc us fs) as HT'.
  { rewrite HT, W2. unfold rest_enc. rewrite enc_cons, <- !app_assoc. f_equal. f_equal. unfold enc_unit. pose proof (clear_pos u G) as CP. destruct (clear u) as [|c]; [lia|]. unfold u. cbn [firstn skipn app]. reflexivity. }
  assert (len u - 1 = len u') as LU by (unfold u, len; cbn [length]; lia). cbn [length] in HN.
  pose proof G as G0. destruct G0 as (G1 & G2 & G3 & bb & G4 & G5). change (hd 0 u) with t' in *. rewrite G4.
  destruct (negb bb || (len u - 1 <? 1 + 16)) eqn:Q.
  - destruct (short_clear u G) as [EU SU]. { destruct bb; [right; unfold len in *; cbn [negb orb] in Q; lia | left; exact G4]. }
    eexists. split; [reflexivity|]. unfold stepgood. cbn [v_wb]. split; [exact W1|]. split; [|unfold zz; cbn [v_phase v_pkt]; destruct (_ =? 0); lia].
    apply (TCopy _ _ _ u' us fs (short u)); cbn [v_phase v_pkt v_next v_wb].
    + reflexivity.
    + exact NX.
    + unfold body_inv. cbn [v_pkt v_next]. split; [apply (Forall_inv_tail G1)|]. split; [lia|]. split; [unfold len in *; lia | left; exact NX].
    + exact AF.
    + rewrite SU. unfold u. cbn [length]. split; intros Y; [destruct u'; [reflexivity | cbn [length] in Y; lia] | rewrite Y; reflexivity].
    + intros _. apply W3. destruct (be nl (len u)); discriminate.
    + exact EQ.
    + rewrite HT', EU. reflexivity.
  - assert (bb = true) as -> by (destruct bb; [reflexivity | discriminate Q]). cbn [negb orb] in Q. assert (18 <= length u)%nat as U18 by (unfold len in *; lia).
    apply (header_ok _ b 1%nat u us fs R T N); cbn [v_hdr v_want v_pkt v_next v_wb].
    + reflexivity.
    + unfold len in *. lia.
    + unfold len in *. lia.
    + exact U18.
    + exact G4.
    + reflexivity.
    + exact NX.
    + exact G.
    + exact AF.
    + exact W1.
    + exact EQ.
    + exact HT'.
    + left. lia.
Qed.

Lemma size_ok st b a hs u us fs R T N : b <> [] -> a ++ hs = be nl (len u) -> hs <> [] -> v_len st = length hs -> v_pkt st = unbe a -> v_next st = 0 ->
  after st true (u :: us) fs -> wok cap (v_wb st) -> b ++ R = hs ++ u ++ rest us fs -> T = total (v_wb st) ++ rest_enc (u :: us) fs -> (2 * length b <= N)%nat ->
  exists x, v_size E slice hdr iv cap nl mh st b = Ok x /\ stepgood N R T x.
Proof.
  intros NB EA NH VL VP NX (A1 & A2 & A3 & A4 & A5 & A6) W EQ HT HN. unfold v_size. pose proof (Forall_inv A1) as G. pose proof (stored_pos u us G) as SP. rewrite <- A2 in SP.
  assert (v_left st <=? 0 = false) as -> by lia. cbn [bind]. pose proof G as G0. destruct G0 as (G1 & G2 & G3 & _).
  assert (Forall is_byte (a ++ hs)) as BA by (rewrite EA; unfold be; apply Forall_rev, le_bytes). apply Forall_app in BA. destruct BA as [BA BH].
  assert (unbe a * 256 ^ Z.of_nat (length hs) + unbe hs = len u) as UV. { rewrite <- unbe_app, EA, unbe_be. apply Z.mod_small. unfold len. lia. }
  rewrite take_len_size, VL, VP. pose proof (unbe_bound a BA) as UA.
  destruct (split_two b R hs (u ++ rest us fs) EQ) as [(e & E1 & E2)|(e & E1 & E2 & E3)].
  - subst hs. rewrite (take_some b e (unbe a) BH ltac:(lia) ltac:(rewrite UV; unfold len; lia)). destruct e as [|x e].
    + rewrite app_nil_r in *. cbn [length app] in *. rewrite UV. pose proof (gu_pos u G) as UP. assert (len u <=? 0 = false) as -> by (unfold len; lia).
      assert (v_left st = Z.of_nat nl + len u + len (stored nl us)) as LL by (rewrite A2, stored_cons; unfold len; rewrite !app_length, be_length; lia). assert (0 <= len (stored nl us)) as L0 by (unfold len; lia). assert (0 < len u) as LU by (unfold len; lia).
      assert (u32 (v_left st - Z.of_nat nl) = v_left st - Z.of_nat nl) as -> by (unfold u32; apply Z.mod_small; lia). assert (v_left st - Z.of_nat nl <? len u = false) as -> by lia.
      assert (v_left st - (Z.of_nat nl + len u) = len (stored nl us)) as -> by lia.
      assert ((0 <? len (stored nl us)) && (len (stored nl us) <? Z.of_nat nl + mh) = false) as ->. { destruct us as [|v us]; [reflexivity|]. pose proof (Forall_inv (Forall_inv_tail A1)) as (_ & V & _). rewrite stored_cons. unfold len. rewrite !app_length, be_length. lia. }
      eexists. split; [reflexivity|]. unfold stepgood. cbn [v_wb]. split; [exact W|]. split; [|unfold zz; cbn [v_phase]; destruct b; [congruence | cbn [length] in *; lia]].
      apply (TType _ _ _ u us fs); cbn [v_phase v_pkt v_next v_wb]; [reflexivity | reflexivity | exact NX | exact G | | exact E2 | exact HT].
      split; [exact (Forall_inv_tail A1)|]. split; [reflexivity|]. cbn [v_left v_frames]. split; [lia|]. split; [exact A4|]. split; [exact A5|]. rewrite <- A6. reflexivity.
    + cbn [length]. eexists. split; [reflexivity|]. unfold stepgood. cbn [v_wb]. split; [exact W|]. split; [|unfold zz; cbn [v_phase]; destruct b; [congruence | cbn [length] in *; lia]].
      apply (TLen _ _ _ (a ++ b) (x :: e) u us fs); cbn [v_phase v_len v_pkt v_next v_wb]; [reflexivity | rewrite <- EA, <- app_assoc; reflexivity | discriminate | reflexivity | rewrite unbe_app; reflexivity | exact NX | | exact E2 | exact HT].
      repeat split; assumption.
  - subst b. rewrite (take_all hs (unbe a) e BH ltac:(lia) ltac:(rewrite UV; unfold len; lia)). rewrite UV. pose proof (gu_pos u G) as UP. assert (len u <=? 0 = false) as -> by (unfold len; lia).
    assert (v_left st = Z.of_nat nl + len u + len (stored nl us)) as LL by (rewrite A2, stored_cons; unfold len; rewrite !app_length, be_length; lia). assert (0 <= len (stored nl us)) as L0 by (unfold len; lia). assert (0 < len u) as LU by (unfold len; lia).
    assert (u32 (v_left st - Z.of_nat nl) = v_left st - Z.of_nat nl) as -> by (unfold u32; apply Z.mod_small; lia). assert (v_left st - Z.of_nat nl <? len u = false) as -> by lia.
    assert (v_left st - (Z.of_nat nl + len u) = len (stored nl us)) as -> by lia.
    assert ((0 <? len (stored nl us)) && (len (stored nl us) <? Z.of_nat nl + mh) = false) as ->. { destruct us as [|v us]; [reflexivity|]. pose proof (Forall_inv (Forall_inv_tail A1)) as (_ & V & _). rewrite stored_cons. unfold len. rewrite !app_length, be_length. lia. }
    destruct e as [|x e]; [congruence|]. rewrite app_length in HN.
    apply (type_ok _ (x :: e) u us fs R T N); cbn [v_phase v_pkt v_next v_wb]; [discriminate | reflexivity | exact NX | exact G | | exact W | symmetry; exact E2 | exact HT | lia].
    split; [exact (Forall_inv_tail A1)|]. split; [reflexivity|]. cbn [v_left v_frames]. split; [lia|]. split; [exact A4|]. split; [exact A5|]. rewrite <- A6. reflexivity.
Qed.

Lemma loop_ok fuel : forall st b R T, wok cap (v_wb st) -> vtodo st (b ++ R) T -> (2 * length b + zz st <= S fuel)%nat ->
  exists st', v_loop E slice hdr iv cap nl mh fuel st b = Ok st' /\ wok cap (v_wb st') /\ vtodo st' R T.
Proof.
  induction fuel as [|fuel IH]; intros st b R T W TD HF.
  - destruct b; [|cbn [length] in HF; lia]. exists st. split; [reflexivity|]. split; [exact W | exact TD].
  - destruct b as [|x b']; [exists st; split; [reflexivity|]; split; [exact W | exact TD]|]. set (b := x :: b') in *. assert (b <> []) as NB by discriminate. cbn [v_loop].
    assert (exists a, match v_phase st with VSize => v_size E slice hdr iv cap nl mh st b | VType => v_type E slice hdr iv cap nl st b | VHeader => v_header E hdr iv cap nl st b | VEncrypt => v_encrypt E cap nl st b | VCopy => Ok (v_copy cap nl st b) end = Ok a /\ stepgood (2 * length b + zz st) R T a) as (a & A1 & A2).
    { destruct TD as [H1 | u us fs P1 P2 P3 P4 P5 P6 P7 P8 P9 P10 | a hs u us fs P1 P2 P3 P4 P5 P6 P7 P8 P9 | u us fs P1 P2 P3 P4 P5 P6 P7 | j u us fs P1 P2 P3 P4 P5 P6 P7 P8 P9 P10 P11 P12 | L us fs P1 P2 P3 P4 P5 P6 | L us fs d P1 P2 P3 P4 P5 P6 P7 P8].
      - discriminate H1.
      - rewrite P1. set (st2 := Vid (map fsize fs) (fsize (u :: us)) VSize (v_len st) (v_pkt st) (v_next st) (v_hdr st) (v_want st) (v_cbc st) (v_wb st)).
        pose proof (Forall_inv P7) as [F1 F2]. pose proof (stored_pos u us (Forall_inv F1)) as SP. fold (fsize (u :: us)) in SP.
        assert (v_size E slice hdr iv cap nl mh st b = v_size E slice hdr iv cap nl mh st2 b) as ->.
        { unfold v_size. rewrite P2, P6. change (0 <=? 0) with true. cbv iota. cbn [map]. unfold st2. cbn [v_left v_frames v_len v_pkt v_next v_hdr v_want v_cbc v_wb].
          assert (fsize (u :: us) <? Z.of_nat nl + mh = false) as ->. { unfold fsize. rewrite stored_cons. pose proof (Forall_inv F1) as (_ & V & _). unfold len. rewrite !app_length, be_length. lia. }
          assert (fsize (u :: us) <=? 0 = false) as -> by lia. reflexivity. }
        apply (size_ok st2 b [] (be nl (len u)) u us fs R T); unfold st2; cbn [v_len v_pkt v_next v_wb].
        + exact NB.
        + reflexivity.
        + intros E0. pose proof (be_length nl (len u)) as X. rewrite E0 in X. cbn [length] in X. lia.
        + rewrite be_length. exact P3.
        + exact P4.
        + exact P5.
        + split; [exact F1|]. split; [reflexivity|]. split; [exact F2|]. split; [exact (Forall_inv_tail P7)|]. split; [reflexivity | exact P8].
        + exact W.
        + rewrite P9, stored_cons. unfold rest. rewrite <- !app_assoc. reflexivity.
        + exact P10.
        + lia.
      - rewrite P1. apply (size_ok st b a hs u us fs R T); try assumption. lia.
      - rewrite P1. apply (type_ok st b u us fs R T); try assumption. lia.
      - rewrite P1. apply (header_ok st b j u us fs R T); try assumption; [lia|]. right. split; [lia|]. split; [exact NB | lia].
      - rewrite P1. apply (encrypt_ok st b L R T us fs); try assumption. right. split; [lia|]. split; [exact NB | exact P2].
      - rewrite P1. eexists. split; [reflexivity|]. apply (copy_ok st b L R T us fs d); try assumption.
        + right. split; assumption.
        + left. exact P2.
        + intros Y. split; [apply P5; exact Y | exact NB].
        + unfold out_body. rewrite P2. exact P8.
        + destruct L as [|l L]; [left | right; split; [lia|]; split; [exact NB | discriminate]]. destruct P3 as (_ & B2 & _). unfold zz. rewrite P1, <- B2. change (len [] =? 0) with true. cbv iota. lia. }
    unfold b at 1. rewrite A1. cbn [bind]. destruct a as [st1 b1|st1]; cbn [stepgood] in A2.
    + destruct A2 as (S1 & S2 & S3). apply IH; [exact S1 | exact S2 | lia].
    + exists st1. split; [reflexivity | exact A2].
Qed.

Lemma writes_ok l : forall st R T, wok cap (v_wb st) -> vtodo st (concat l ++ R) T ->
  exists st', v_writes E slice hdr iv cap nl mh st l = Ok st' /\ wok cap (v_wb st') /\ vtodo st' R T.
Proof.
  induction l as [|b l IH]; intros st R T W H; [exists st; split; [reflexivity|]; split; [exact W | exact H]|]. cbn [concat] in H. rewrite <- app_assoc in H. cbn [v_writes].
  destruct (loop_ok (2 * length b) st b (concat l ++ R) T W H) as (st1 & -> & W1 & H1); [unfold zz; destruct (v_phase st); try lia; destruct (_ =? 0); lia|]. cbn [bind]. apply IH; assumption.
Qed.

Lemma todo_end2 st T : vtodo st [] T -> T = total (v_wb st) /\ if lb then dirty (v_wb st) else w_buf (v_wb st) = None.
Proof.
  assert (forall (a b : list Z), [] = a ++ b -> a = [] /\ b = []) as NIL by (intros a b0 H; apply app_eq_nil; symmetry; exact H).
  intros [H1 H2 H3 H4 | u us fs P1 P2 P3 P4 P5 P6 P7 P8 P9 P10 | a hs u us fs P1 P2 P3 P4 P5 P6 P7 P8 P9 | u us fs P1 P2 P3 P4 P5 P6 P7 | j u us fs P1 P2 P3 P4 P5 P6 P7 P8 P9 P10 P11 P12 | L us fs P1 P2 P3 P4 P5 P6 | L us fs d P1 P2 P3 P4 P5 P6 P7 P8].
  - rewrite H4. split; assumption.
  - exfalso. apply NIL in P9. destruct P9 as [P9 _]. pose proof (stored_pos u us (Forall_inv (proj1 (Forall_inv P7)))) as SP. rewrite P9 in SP. change (len []) with 0 in SP. lia.
  - exfalso. apply NIL in P8. destruct P8 as [P8 _]. congruence.
  - exfalso. apply NIL in P6. destruct P6 as [P6 _]. pose proof (gu_pos u P4). rewrite P6 in *. cbn [length] in *. lia.
  - exfalso. apply NIL in P11. destruct P11 as [P11 _]. apply (f_equal (@length Z)) in P11. rewrite skipn_length in P11. cbn [length] in P11. lia.
  - exfalso. apply NIL in P5. destruct P5 as [P5 _]. congruence.
  - apply NIL in P7. destruct P7 as [-> P7]. unfold rest in P7. apply app_eq_nil in P7. destruct P7 as [P7 P9]. destruct P4 as (A1 & A2 & A3 & A4 & A5 & A6).
    assert (us = []) as -> by (apply stored_nil; [exact A1 | rewrite P7; change (len []) with 0; lia]). 
    destruct (frames_next fs A4) as [(F1 & F2 & F3 & F4)|(u & us & gs & F1 & F2 & F3 & F4 & F5)].
    + rewrite F4 in A6. cbn [app lastb fold_left] in A6. assert (d = true) as D1 by (apply P5; reflexivity). rewrite <- A6, D1. split; [|apply P6; reflexivity]. rewrite P8. unfold rest_enc. rewrite F3. cbn [enc_units flat_map app]. apply app_nil_r.
    + exfalso. rewrite F3 in P9. apply app_eq_nil in P9. destruct P9 as [P9 _]. pose proof (stored_pos u us (Forall_inv (proj1 (Forall_inv F2)))) as SP. rewrite P9 in SP. change (len []) with 0 in SP. lia.
Qed.

Lemma cbcs_video_raw fs l : Forall good_frame fs -> concat l = concat (map (stored nl) fs) -> lastb false (concat fs) = lb ->
  exists s o, cbcs_video E slice hdr iv cap nl mh (map fsize fs) l = Ok (s, o) /\ (s ++ match o with Some b => b | None => [] end) = concat (map enc_units fs)
    /\ if lb then exists b, o = Some b /\ b <> [] else o = None.
Proof.
  intros G C LB. unfold cbcs_video. set (st := Vid _ _ _ _ _ _ _ _ _ _).
  assert (vtodo st (concat l ++ []) (concat (map enc_units fs))) as H.
  { rewrite app_nil_r, C. unfold st. destruct (frames_next fs G) as [(F1 & F2 & F3 & F4)|(u & us & gs & F1 & F2 & F3 & F4 & F5)].
    - apply TDone; [exact F2 | reflexivity | rewrite F3; reflexivity | rewrite <- LB, F4; reflexivity].
    - apply (TStart _ _ _ u us gs); cbn [v_phase v_left v_len v_pkt v_next v_frames v_wb]; try reflexivity; [exact F1 | exact F2 | rewrite <- LB, F5; reflexivity | exact F3 | rewrite F4; reflexivity]. }
  destruct (writes_ok l st [] _ ltac:(unfold st, wok, w_used; cbn [v_wb w_buf]; lia) H) as (st' & -> & W & H'). cbn [bind]. destruct (todo_end2 _ _ H') as [T1 T2].
  eexists _, _. split; [reflexivity|]. split; [symmetry; exact T1 | exact T2].
Qed.

(* ----- what the player gets *)
Lemma pattern_back n : forall m ch l, (length l <= n)%nat -> (length l <= m)%nat -> is_block ch -> Forall is_byte l -> pattern D m ch (penc n ch l) = l /\ length (penc n ch l) = length l.
Proof.
  induction n as [|n IH]; intros m ch l A B CH BY.
  - destruct l; [|cbn [length] in A; lia]. destruct m; split; reflexivity.
  - cbn [penc]. destruct (16 <=? length l)%nat eqn:Q.
    2:{ split; [|reflexivity]. destruct m as [|m]; [reflexivity|]. cbn [pattern]. rewrite Q. reflexivity. }
    cbv zeta. assert (is_block (firstn 16 l)) as FB by (split; [rewrite firstn_length; lia | apply Forall_firstn; exact BY]).
    destruct (ED (xor ch (firstn 16 l)) (xor_block _ _ CH FB)) as [CB DE]. set (c := E (xor ch (firstn 16 l))) in *. destruct CB as [C1 C2].
    assert (length (skipn 160 l) <= n)%nat as L1 by (rewrite skipn_length; lia).
    destruct m as [|m]; [lia|]. destruct (IH m c (skipn 160 l) L1 ltac:(rewrite skipn_length; lia) (conj C1 C2) (Forall_skipn _ _ _ BY)) as [I1 I2].
    set (mid := firstn 144 (skipn 16 l)). assert (length mid = Nat.min 144 (length l - 16)) as LM by (unfold mid; rewrite firstn_length, skipn_length; reflexivity).
    assert (length (c ++ mid ++ penc n c (skipn 160 l)) = length l) as LL by (rewrite !app_length, I2, skipn_length, LM, C1; lia). split; [|exact LL].
    destruct (cut_at c (mid ++ penc n c (skipn 160 l)) 16 C1) as [F16 S16].
    cbn [pattern]. rewrite LL, Q. rewrite F16. rewrite DE, xor_back by (rewrite (proj1 CH), (proj1 FB); reflexivity).
    rewrite S16. assert (skipn 160 (c ++ mid ++ penc n c (skipn 160 l)) = skipn 144 (mid ++ penc n c (skipn 160 l))) as -> by (symmetry; etransitivity; [exact (f_equal (skipn 144) (eq_sym S16)) | rewrite skipn_plus; reflexivity]).
    assert (firstn 144 (mid ++ penc n c (skipn 160 l)) = mid /\ skipn 144 (mid ++ penc n c (skipn 160 l)) = penc n c (skipn 160 l)) as [-> ->].
    { destruct (Nat.le_gt_cases 160 (length l)) as [G|G].
      - apply cut_at. lia.
      - rewrite (skipn_all2 l) by lia. assert (penc n c [] = []) as -> by (destruct n; reflexivity). rewrite app_nil_r. split; [apply firstn_all2; lia | apply skipn_all2; lia]. }
    rewrite I1. transitivity (firstn 16 l ++ skipn 16 l); [|apply firstn_skipn]. apply (f_equal (app (firstn 16 l))). transitivity (firstn 144 (skipn 16 l) ++ skipn 144 (skipn 16 l)); [|apply firstn_skipn].
    unfold mid. apply (f_equal (app (firstn 144 (skipn 16 l)))). rewrite skipn_plus. reflexivity.
Qed.
Lemma clear_le u : gu u -> (clear u <= length u)%nat.
Proof.
  intros G. destruct G as (_ & _ & _ & b & S & H). unfold clear_size. rewrite S. destruct b; [|lia]. destruct (hdr (firstn 128 u)) as [h|]; [|lia].
  destruct ((18 <=? length u)%nat && (16 <=? length u - h)%nat) eqn:Q; lia.
Qed.
Lemma read_enc_unit u : gu u -> read_unit D iv (clear u) (enc_unit u) = u /\ length (enc_unit u) = length u /\ firstn (clear u) (enc_unit u) = firstn (clear u) u.
Proof.
  intros G. pose proof (clear_le u G) as CL. destruct G as (BY & _). unfold enc_unit. set (c := clear u) in *. assert (length (firstn c u) = c) as L1 by (rewrite firstn_length; lia).
  assert (forall x, firstn c (firstn c u ++ x) = firstn c u) as F1 by (intros x; rewrite firstn_le_app by lia; rewrite <- L1 at 1; apply firstn_all).
  assert (forall x, skipn c (firstn c u ++ x) = x) as F2 by (intros x; rewrite skipn_le_app by lia; rewrite <- L1 at 1; rewrite skipn_all; reflexivity).
  assert (length (skipn c u) = length u - c)%nat as L2 by apply skipn_length.
  destruct (pattern_back (length (skipn c u)) (length (skipn c u) + c) iv (skipn c u) ltac:(lia) ltac:(lia) IV (Forall_skipn _ _ _ BY)) as [P1 P2]. fold (pe iv (skipn c u)) in P1, P2.
  assert (length (firstn c u ++ pe iv (skipn c u)) = length u) as LL by (rewrite app_length, P2; lia).
  split; [|split; [exact LL | apply F1]]. unfold read_unit. rewrite F1, F2, LL. replace (length u) with (length (skipn c u) + c)%nat at 1 by lia. rewrite P1. apply firstn_skipn.
Qed.
Lemma enc_units_stored f : Forall gu f -> enc_units f = stored nl (map enc_unit f).
Proof.
  induction f as [|u f IH]; intros G; [reflexivity|]. rewrite enc_cons. cbn [map]. rewrite stored_cons, (IH (Forall_inv_tail G)). destruct (read_enc_unit u (Forall_inv G)) as (_ & L & _). unfold len. rewrite L. reflexivity.
Qed.
Lemma enc_units_len f : Forall gu f -> length (enc_units f) = length (stored nl f).
Proof.
  induction f as [|u f IH]; intros G; [reflexivity|]. rewrite enc_cons, stored_cons, !app_length, (IH (Forall_inv_tail G)). destruct (read_enc_unit u (Forall_inv G)) as (_ & L & _). rewrite L. reflexivity.
Qed.
Lemma lastb_last us : lastb false us = short (last us []).
Proof.
  assert (short [] = false) as S0. { unfold short_unit. cbn [length]. destruct (slice _) as [[]|]; try reflexivity. destruct (hdr _); reflexivity. }
  assert (forall d, us = [] \/ lastb d us = short (last us [])) as H.
  { induction us as [|u us IH]; intros d; [left; reflexivity|]. right. rewrite lastb_cons. destruct us as [|v us]; [reflexivity|]. destruct (IH (short u)) as [H|H]; [discriminate H | exact H]. }
  destruct (H false) as [->|H0]; [symmetry; exact S0 | exact H0].
Qed.
End Cipher.
