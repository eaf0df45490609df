(* SAMPLE-AES of Enhanced AC-3. *)
From Coq Require Import ZArith List Bool Lia ZifyBool Arith.
From Verif Require Import Bytes HlsModel HlsSpec HlsProofs HlsProofs2 HlsProofs3 HlsProofs4.
Import ListNotations.
Open Scope Z_scope.

Definition sync_ok (x : list Z) : Prop := sync_frame x /\ Forall is_byte x.
Lemma sync_len x : sync_ok x -> 8 <= len x <= 4096.
Proof.
  intros ((b & c & r & -> & H & L) & B). unfold len. pose proof (Forall_inv (Forall_inv_tail (Forall_inv_tail (Forall_inv_tail B)))) as C. unfold is_byte in C. lia.
Qed.
Lemma sync_size_ok x l : sync_ok x -> l = firstn 7 x -> nth 0 l 0 = 11 /\ nth 1 l 0 = 119 /\ sync_size l = len x.
Proof.
  intros ((b & c & r & -> & H & L) & B) ->. change (firstn 7 (11 :: 119 :: b :: c :: r)) with (11 :: 119 :: b :: c :: firstn 3 r). cbn [nth]. split; [reflexivity|]. split; [reflexivity|].
  pose proof (Forall_inv (Forall_inv_tail (Forall_inv_tail (Forall_inv_tail B)))) as C. unfold is_byte in C. unfold sync_size, len. cbn [nth]. rewrite H.
  change 2047 with (Z.ones 11). rewrite Z.land_ones by lia. change (2 ^ 11) with 2048. lia.
Qed.

Section Cipher.
Variables E D : list Z -> list Z.
Hypothesis ED : cipher E D.

Definition sub (ch u : list Z) : frm := Frm 0 (len u - len u mod 16) (Cbc ch []).
Fixpoint outs (ch : list Z) (us : list (list Z)) : list (list Z) :=
  match us with [] => [] | u :: us => outf E (sub ch u) u :: outs (c_chain (endf E (sub ch u) u)) us end.

Definition todo3 (st : eac3) (R out : list Z) : Prop :=
  exists xs, Forall sync_ok xs /\ e_left st = len (concat xs) /\
    match e_head st with
    | Some h => h ++ R = concat xs /\ (length h < 7)%nat /\ idle (e_frm st) /\ out = concat (outs (c_chain (r_cbc (e_frm st))) xs)
    | None => exists L, R = L ++ concat xs /\ Forall is_byte L /\ len L = e_sync st /\ 0 < e_sync st /\ finv (e_frm st) L
        /\ out = outf E (e_frm st) L ++ concat (outs (c_chain (endf E (e_frm st) L)) xs)
    end.

Definition restf (fuel : nat) (o : list Z) (left sync : Z) (f : frm) (buf : list Z) : res (list Z * eac3) :=
  let k := Z.to_nat (Z.min sync (len buf)) in
  bind (write_frame E f (firstn k buf)) (fun r =>
    let sync := sync - Z.of_nat k in
    if 0 <? sync then Ok (o ++ fst r, Eac3 None left sync (snd r))
    else if len buf - Z.of_nat k <=? 0 then Ok (o ++ fst r, Eac3 (Some []) left sync (snd r))
    else bind (eac3_loop E fuel (Eac3 (Some []) left sync (snd r)) (skipn k buf))
           (fun s => Ok (o ++ fst r ++ fst s, snd s))).

Lemma loop_eq fuel st buf : eac3_loop E (S fuel) st buf =
  match e_head st with
  | Some h =>
      let k := Z.to_nat (Z.min (7 - len h) (len buf)) in
      let h := h ++ firstn k buf in
      if 0 <? 7 - len h then Ok ([], Eac3 (Some h) (e_left st) (e_sync st) (e_frm st))
      else if negb ((nth 0 h 0 =? 11) && (nth 1 h 0 =? 119)) then Err
      else
        let size := sync_size h in
        if (size <? 7) || (e_left st <? size) then Err
        else
          let left := e_left st - size in
          if (0 <? left) && (left <? 7) then Err
          else
            bind (write_frame E (start_sub_frame (e_frm st) size) h) (fun r =>
              restf fuel (fst r) left (size - 7) (snd r) (skipn k buf))
  | None => restf fuel [] (e_left st) (e_sync st) (e_frm st) buf
  end.
Proof. reflexivity. Qed.

Definition loop_good (fuel : nat) : Prop := forall st b R out, (length b < fuel)%nat -> todo3 st (b ++ R) out ->
  exists o st' out', eac3_loop E fuel st b = Ok (o, st') /\ todo3 st' R out' /\ out = o ++ out'.

Lemma rest_ok fuel o f buf R L xs : loop_good fuel -> (length buf <= fuel)%nat -> buf ++ R = L ++ concat xs -> Forall is_byte L -> 0 < len L -> finv f L -> Forall sync_ok xs ->
  exists o' st' out', restf fuel o (len (concat xs)) (len L) f buf = Ok (o ++ o', st') /\ todo3 st' R out'
    /\ outf E f L ++ concat (outs (c_chain (endf E f L)) xs) = o' ++ out'.
Proof.
  intros IH LF EQ BL L0 FI SX. unfold restf. destruct (Z.le_gt_cases (len L) (len buf)) as [C|C].
  - assert (Z.to_nat (Z.min (len L) (len buf)) = length L) as -> by (unfold len in *; lia).
    assert (buf = L ++ skipn (length L) buf /\ skipn (length L) buf ++ R = concat xs) as [B1 B2].
    { assert (firstn (length L) buf = L) as F1.
      { apply (f_equal (firstn (length L))) in EQ. rewrite firstn_le_app in EQ by (unfold len in C; lia). rewrite firstn_le_app, firstn_all in EQ by lia. exact EQ. }
      split; [rewrite <- F1 at 1; symmetry; apply firstn_skipn|]. apply (f_equal (skipn (length L))) in EQ. rewrite skipn_le_app in EQ by (unfold len in C; lia). rewrite skipn_le_app, skipn_all in EQ by lia. exact EQ. }
    set (buf' := skipn (length L) buf) in *. assert (firstn (length L) buf = L) as -> by (rewrite B1, firstn_le_app, firstn_all by lia; reflexivity).
    destruct (write_ok E D ED f L [] ltac:(rewrite app_nil_r; exact BL) ltac:(rewrite app_nil_r; exact FI)) as (o1 & f1 & W & F1 & O1 & E1). rewrite app_nil_r in O1, E1. rewrite W. cbn [bind fst snd].
    destruct (end_nil E f1 F1) as (N1 & N2 & N3). rewrite N1, app_nil_r in O1. rewrite N2 in E1.
    assert (0 <? len L - Z.of_nat (length L) = false) as -> by (unfold len; lia).
    set (st1 := Eac3 (Some []) (len (concat xs)) (len L - Z.of_nat (length L)) f1).
    assert (todo3 st1 (concat xs) (concat (outs (c_chain (r_cbc f1)) xs))) as T.
    { exists xs. split; [exact SX|]. split; [reflexivity|]. cbn [e_head st1]. split; [reflexivity|]. split; [cbn; lia|]. split; [split; [apply F1 | exact N3] | reflexivity]. }
    assert (len buf - Z.of_nat (length L) = Z.of_nat (length buf')) as LB by (apply (f_equal (@length Z)) in B1; rewrite app_length in B1; unfold len; lia). rewrite LB.
    destruct (Z.of_nat (length buf') <=? 0) eqn:Q.
    + assert (buf' = []) as Eb by (destruct buf'; [reflexivity | cbn [length] in Q; lia]). rewrite Eb in B2. cbn [app] in B2. exists o1, st1, (concat (outs (c_chain (r_cbc f1)) xs)).
      split; [reflexivity|]. split; [rewrite B2; exact T | rewrite O1, E1; reflexivity].
    + rewrite <- B2 in T. destruct (IH st1 buf' R _ ltac:(unfold len in *; lia) T) as (o2 & st2 & out2 & W2 & T2 & EO). rewrite W2. cbn [bind fst snd]. exists (o1 ++ o2), st2, out2. split; [reflexivity|]. split; [exact T2|].
      rewrite O1, E1, EO, app_assoc. reflexivity.
  - assert (Z.to_nat (Z.min (len L) (len buf)) = length buf) as -> by (unfold len in *; lia). rewrite firstn_all.
    assert (L = buf ++ skipn (length buf) L /\ R = skipn (length buf) L ++ concat xs) as [B1 B2].
    { assert (firstn (length buf) L = buf) as F1.
      { apply (f_equal (firstn (length buf))) in EQ. rewrite firstn_le_app, firstn_all in EQ by lia. rewrite firstn_le_app in EQ by (unfold len in C; lia). symmetry. exact EQ. }
      split; [rewrite <- F1 at 1; symmetry; apply firstn_skipn|]. apply (f_equal (skipn (length buf))) in EQ. rewrite skipn_le_app, skipn_all in EQ by lia. rewrite skipn_le_app in EQ by (unfold len in C; lia). exact EQ. }
    set (L' := skipn (length buf) L) in *. rewrite B1 in BL, FI. destruct (write_ok E D ED f buf L' BL FI) as (o1 & f1 & W & F1 & O1 & E1). rewrite W. cbn [bind fst snd].
    assert (len L - Z.of_nat (length buf) = len L') as -> by (apply (f_equal (@length Z)) in B1; rewrite app_length in B1; unfold len; lia).
    assert (0 < len L') as P by (apply (f_equal (@length Z)) in B1; rewrite app_length in B1; unfold len in *; lia). assert (0 <? len L' = true) as -> by lia.
    exists o1, (Eac3 None (len (concat xs)) (len L') f1), (outf E f1 L' ++ concat (outs (c_chain (endf E f1 L')) xs)). split; [reflexivity|]. split.
    + exists xs. split; [exact SX|]. split; [reflexivity|]. cbn [e_head]. exists L'. cbn [e_sync e_frm]. apply Forall_app in BL. split; [exact B2|]. split; [apply BL|]. split; [reflexivity|]. split; [exact P|]. split; [exact F1 | reflexivity].
    + rewrite B1, O1, E1, app_assoc. reflexivity.
Qed.

Lemma concat_sync xs : Forall sync_ok xs -> concat xs = [] \/ 8 <= len (concat xs).
Proof. intros H. destruct xs as [|x xs]; [left; reflexivity | right]. pose proof (sync_len x (Forall_inv H)) as S. cbn [concat]. unfold len in *. rewrite app_length. lia. Qed.

Lemma loop_all fuel : loop_good fuel.
Proof.
  induction fuel as [|fuel IH]; intros st b R out LB (xs & SX & LL & T); [lia|]. rewrite loop_eq. destruct (e_head st) as [h|].
  - destruct T as (EQ & Lh & I & ->). cbv zeta. destruct (Z.le_gt_cases 7 (len h + len b)) as [C|C].
    + set (k := Z.to_nat (Z.min (7 - len h) (len b))). assert (k = 7 - length h)%nat as Ek by (unfold k, len in *; lia). clearbody k.
      assert (7 <= length (concat xs))%nat as LC by (rewrite <- EQ, !app_length; unfold len in *; lia).
      destruct xs as [|x xs]; [cbn [concat length] in LC; lia|]. pose proof (Forall_inv SX) as Sx. pose proof (sync_len x Sx) as Lx. cbn [concat] in *.
      assert (h ++ firstn k b = firstn 7 x) as Hh.
      { apply (f_equal (firstn 7)) in EQ. rewrite (firstn_ge_app 7 h) in EQ by lia. rewrite <- Ek in EQ. rewrite (firstn_le_app k) in EQ by (unfold len in *; lia). rewrite firstn_le_app in EQ by (unfold len in *; lia). exact EQ. }
      assert (skipn k b ++ R = skipn 7 x ++ concat xs) as HR.
      { apply (f_equal (skipn 7)) in EQ. rewrite (skipn_ge_app 7 h) in EQ by lia. rewrite <- Ek in EQ. rewrite (skipn_le_app k) in EQ by (unfold len in *; lia). rewrite skipn_le_app in EQ by (unfold len in *; lia). exact EQ. }
      rewrite Hh. assert (len (firstn 7 x) = 7) as L7 by (unfold len in *; rewrite firstn_length; lia). rewrite L7. cbn [Z.sub Z.ltb Z.compare Z.add Z.opp Z.pos_sub].
      change (0 <? 7 - 7) with false. cbv iota. destruct (sync_size_ok x _ Sx eq_refl) as (Z0 & Z1 & Z2). rewrite Z0, Z1, Z2. cbn [Z.eqb Pos.eqb andb negb].
      rewrite LL. assert (len (x ++ concat xs) = len x + len (concat xs)) as LA by (unfold len; rewrite app_length; lia). rewrite LA.
      assert ((len x <? 7) || (len x + len (concat xs) <? len x) = false) as -> by (unfold len in *; lia).
      assert (len x + len (concat xs) - len x = len (concat xs)) as -> by lia.
      assert ((0 <? len (concat xs)) && (len (concat xs) <? 7) = false) as ->. { destruct (concat_sync xs (Forall_inv_tail SX)) as [-> | G]; [reflexivity | lia]. }
      assert (start_sub_frame (e_frm st) (len x) = sub (c_chain (r_cbc (e_frm st))) x) as SS.
      { unfold start_sub_frame, sub. f_equal. destruct I as [_ I]. destruct (r_cbc (e_frm st)) as [cc bb]. cbn [c_chain c_buf] in *. rewrite I. reflexivity. }
      rewrite SS. set (f0 := sub (c_chain (r_cbc (e_frm st))) x).
      assert (finv f0 (firstn 7 x ++ skipn 7 x)) as FI.
      { rewrite firstn_skipn. apply start_finv; [reflexivity | reflexivity | lia | | reflexivity]. split; [apply I | apply Forall_nil]. }
      destruct (write_ok E D ED f0 (firstn 7 x) (skipn 7 x) ltac:(rewrite firstn_skipn; apply Sx) FI) as (o1 & f1 & W & F1 & O1 & E1). rewrite firstn_skipn in O1, E1. rewrite W. cbn [bind fst snd].
      assert (len x - 7 = len (skipn 7 x)) as -> by (unfold len in *; rewrite skipn_length; lia).
      destruct (rest_ok fuel o1 f1 (skipn k b) R (skipn 7 x) xs IH ltac:(rewrite skipn_length; lia) HR ltac:(apply Forall_skipn, Sx) ltac:(unfold len in *; rewrite skipn_length; lia) F1 (Forall_inv_tail SX)) as (o' & st' & out' & W2 & T2 & EO).
      rewrite W2. exists (o1 ++ o'), st', out'. split; [reflexivity|]. split; [exact T2|]. cbn [outs concat]. fold f0. rewrite O1, E1, <- !app_assoc. f_equal. exact EO.
    + assert (Z.to_nat (Z.min (7 - len h) (len b)) = length b) as -> by (unfold len in *; lia). rewrite firstn_all. assert (0 <? 7 - len (h ++ b) = true) as -> by (unfold len in *; rewrite app_length; lia).
      exists [], (Eac3 (Some (h ++ b)) (e_left st) (e_sync st) (e_frm st)), (concat (outs (c_chain (r_cbc (e_frm st))) xs)). split; [reflexivity|]. split; [|reflexivity].
      exists xs. split; [exact SX|]. split; [exact LL|]. cbn [e_head e_frm]. rewrite <- app_assoc. split; [exact EQ|]. split; [unfold len in *; rewrite app_length; lia|]. split; [exact I | reflexivity].
  - destruct T as (L & EQ & BL & LS & P & FI & ->). rewrite <- LS, LL.
    destruct (rest_ok fuel [] (e_frm st) b R L xs IH ltac:(lia) EQ BL ltac:(lia) FI SX) as (o' & st' & out' & W2 & T2 & EO). rewrite W2. exists o', st', out'. split; [reflexivity|]. split; [exact T2 | exact EO].
Qed.

Lemma eac3_writes_ok l : forall st R out, todo3 st (concat l ++ R) out ->
  exists o st' out', eac3_writes E st l = Ok (o, st') /\ todo3 st' R out' /\ out = o ++ out'.
Proof.
  induction l as [|b l IH]; intros st R out T; [exists [], st, out; repeat split; exact T|]. cbn [concat] in T. rewrite <- app_assoc in T. cbn [eac3_writes]. unfold eac3_write.
  destruct (loop_all (S (length b)) st b (concat l ++ R) out ltac:(lia) T) as (o & st1 & out1 & W & T1 & ->). rewrite W. cbn [bind fst snd].
  destruct (IH st1 R out1 T1) as (o2 & st2 & out2 & W2 & T2 & ->). rewrite W2. cbn [bind fst snd]. exists (o ++ o2), st2, out2. split; [reflexivity|]. split; [exact T2 | apply app_assoc].
Qed.

Lemma todo3_nil st out : todo3 st [] out -> out = [] /\ idle (e_frm st).
Proof.
  intros (xs & SX & LL & T). destruct (e_head st) as [h|].
  - destruct T as (EQ & Lh & I & ->). rewrite app_nil_r in EQ. destruct xs as [|x xs]; [split; [reflexivity | exact I]|]. pose proof (sync_len x (Forall_inv SX)) as S. apply (f_equal (@length Z)) in EQ. cbn [concat] in EQ. rewrite app_length in EQ. unfold len in S. lia.
  - destruct T as (L & EQ & _ & LS & P & _). destruct L as [|a L]; [exfalso; change (len []) with 0 in LS; lia | discriminate].
Qed.

Lemma outs_read xs : forall ch, is_block ch -> Forall sync_ok xs -> read_sync D ch (outs ch xs) = concat xs /\ map (@length Z) (outs ch xs) = map (@length Z) xs.
Proof.
  induction xs as [|x xs IH]; intros ch Hc SX; [split; reflexivity|]. destruct (read_out E D ED ch 0 _ x Hc (proj2 (Forall_inv SX)) eq_refl eq_refl) as (R1 & R2 & R3 & R4).
  cbn [outs read_sync map concat]. unfold sub in *. rewrite R1, <- R2. destruct (IH _ R4 (Forall_inv_tail SX)) as [I1 I2]. rewrite I1, I2, R3. split; reflexivity.
Qed.

Lemma read_sync_small xs : forall a b, Forall (fun x => (length x < 32)%nat) xs -> read_sync D a xs = read_sync D b xs.
Proof.
  induction xs as [|x xs IH]; intros a b F; [reflexivity|]. pose proof (Forall_inv F) as S. cbv beta in S. cbn [read_sync]. rewrite (IH (last_block a x) (last_block b x) (Forall_inv_tail F)). f_equal.
  unfold read_audio. assert (16 * ((length x - 16) / 16) = 0)%nat as -> by (rewrite Nat.div_small by lia; reflexivity). rewrite firstn_O. reflexivity.
Qed.

Lemma concat_le (x : list Z) xs : In x xs -> (length x <= length (concat xs))%nat.
Proof. induction xs as [|y xs IH]; intros I; [destruct I|]. cbn [concat]. rewrite app_length. destruct I as [ -> | I]; [lia|]. specialize (IH I). lia. Qed.

(* a frame that is a sequence of sync frames *)
Definition eac3_frame (us : list (list Z)) (f : list (list Z)) : Prop := concat f = concat us /\ us <> [] /\ Forall sync_ok us /\ len (concat us) < 2 ^ 31.

Theorem eac3_ok iv (IV : is_block iv) uss : forall st fs, idle (e_frm st) -> Forall2 eac3_frame uss fs ->
  exists xss, eac3_frames E iv st fs = Ok (map (@concat Z) xss)
    /\ Forall2 (fun us xs => read_sync D iv xs = concat us /\ map (@length Z) xs = map (@length Z) us) uss xss.
Proof.
  induction uss as [|us uss IH]; intros st fs I F; inversion F as [|? f ? fs' (EQ & NE & SX & LU) F']; subst; [exists []; split; [reflexivity | apply Forall2_nil]|]. cbn [eac3_frames]. rewrite EQ.
  assert (8 <= len (concat us)) as L8 by (destruct (concat_sync us SX) as [C|C]; [|exact C]; destruct us as [|u us]; [congruence|]; pose proof (sync_len u (Forall_inv SX)) as S; apply (f_equal (@length Z)) in C; cbn [concat] in C; rewrite app_length in C; unfold len in S; cbn [length] in C; lia).
  unfold eac3_start. assert (len (concat us) <? 7 = false) as -> by lia. cbn [bind].
  set (f0 := start_frame iv (e_frm st) (len (concat us))).
  assert (idle f0) as I0. { unfold idle, f0, start_frame. cbn [r_cbc]. destruct (16 <? _); [split; [split; [exact IV | apply Forall_nil] | reflexivity] | exact I]. }
  set (st0 := Eac3 (Some []) (len (concat us)) (e_sync st) f0).
  assert (todo3 st0 (concat f ++ []) (concat (outs (c_chain (r_cbc f0)) us))) as T.
  { exists us. split; [exact SX|]. split; [reflexivity|]. cbn [e_head st0]. rewrite app_nil_r. split; [exact EQ|]. split; [cbn; lia|]. split; [exact I0 | reflexivity]. }
  destruct (eac3_writes_ok f st0 [] _ T) as (o & st1 & out1 & W & T1 & EO). destruct (todo3_nil st1 out1 T1) as [-> I1]. rewrite app_nil_r in EO. rewrite W. cbn [bind fst snd].
  destruct (IH st1 fs' I1 F') as (xss & W2 & FF). rewrite W2. cbn [bind]. exists (outs (c_chain (r_cbc f0)) us :: xss). split; [cbn [map]; rewrite EO; reflexivity|]. apply Forall2_cons; [|exact FF].
  destruct (outs_read us (c_chain (r_cbc f0)) (proj1 (proj1 I0)) SX) as [R1 R2]. split; [|exact R2]. rewrite <- R1.
  unfold f0, start_frame. cbn [r_cbc]. destruct (16 <? len (concat us) - len (concat us) mod 16) eqn:Q; [reflexivity|].
  apply read_sync_small. assert (length (concat us) < 32)%nat as S by (unfold len in Q; lia).
  assert (Forall (fun n => (n < 32)%nat) (map (@length Z) us)) as FL. { apply Forall_forall. intros n Hn. apply in_map_iff in Hn. destruct Hn as (x & <- & Hx). pose proof (concat_le x us Hx). lia. }
  assert (Forall (fun n => (n < 32)%nat) (map (@length Z) (outs (c_chain (r_cbc (e_frm st))) us))) as FL2.
  { unfold f0, start_frame in R2. cbn [r_cbc] in R2. rewrite Q in R2. rewrite R2. exact FL. }
  apply Forall_forall. intros x Hx. rewrite Forall_forall in FL2. apply FL2. apply in_map. exact Hx.
Qed.
End Cipher.
