(* Captions, SEI messages and frames. *)
From Coq Require Import ZArith List Bool Lia ZifyBool Arith.
From Verif Require Import Bytes CcModel CcSpec CcProofs.
Import ListNotations.
Open Scope Z_scope.

Lemma byte_cases (P : Z -> bool) : forallb P (map Z.of_nat (seq 0 256)) = true -> forall b, is_byte b -> P b = true.
Proof. intros H b Hb. unfold is_byte in Hb. rewrite forallb_forall in H. apply H. apply in_map_iff. exists (Z.to_nat b). split; [lia|]. apply in_seq. lia. Qed.
Lemma flag_bit b : is_byte b -> (Z.land b 64 =? 0) = negb (Z.testbit b 6).
Proof. intros H. assert (Bool.eqb (Z.land b 64 =? 0) (negb (Z.testbit b 6)) = true) as E; [|apply Bool.eqb_prop; exact E]. revert b H. apply (byte_cases (fun b => Bool.eqb (Z.land b 64 =? 0) (negb (Z.testbit b 6)))). vm_compute. reflexivity. Qed.

Lemma unescape_bytes l : forall z, Forall is_byte l -> Forall is_byte (unescape z l).
Proof. induction l as [|b l IH]; intros z H; [constructor|]. inversion H; subst. cbn [unescape]. destruct (_ && _); [apply IH; assumption | constructor; [assumption | apply IH; assumption]]. Qed.

Lemma udr_exact e R T : view e R T -> udr_sei e = captions_of (text e R).
Proof.
  intros V. unfold udr_sei, captions_of. change (length payload_header) with 8%nat. pose proof (ep_read_gen e R T 8 V) as G. set (U := text e R) in *. assert (Forall is_byte U) as BU by (apply unescape_bytes, V). clearbody U. destruct (8 <=? length U)%nat eqn:Q8.
  2: { rewrite G. destruct (list_eq_dec Z.eq_dec (firstn 8 U) cc_header) as [E|_]; [|reflexivity]. apply (f_equal (@length Z)) in E. rewrite firstn_length in E. cbn [cc_header length] in E. lia. }
  destruct G as (e1 & R1 & G1 & V1 & T1). rewrite G1. change payload_header with cc_header. destruct (list_eq_dec Z.eq_dec (firstn 8 U) cc_header) as [E|E]; cbn [negb]; [|reflexivity].
  pose proof (ep_read_gen e1 R1 T 1 V1) as G2. rewrite T1 in G2. assert (Forall is_byte (skipn 8 U)) as BS by (rewrite <- (firstn_skipn 8 U) in BU; apply Forall_app in BU; tauto). set (W := skipn 8 U) in *. clearbody W. destruct W as [|f W]; [cbn [length Nat.leb] in G2; rewrite G2; reflexivity|].
  cbn [length Nat.leb] in G2. destruct G2 as (e2 & R2 & G2 & V2 & T2). rewrite G2. cbv zeta. cbn [firstn hd]. inversion BS as [|? ? Bf BW]; subst. rewrite (flag_bit f Bf). rewrite skipn_cons, skipn_O in T2.
  pose proof (ep_read_gen e2 R2 T 1 V2) as G3. rewrite T2 in G3. destruct W as [|em d]; [cbn [length Nat.leb] in G3; rewrite G3; destruct (negb (Z.testbit f 6)); [reflexivity|]; destruct (Z.land f 31 <=? 0); reflexivity|].
  destruct (Z.testbit f 6); cbn [negb andb]; [|reflexivity]. destruct (Z.land f 31 <=? 0) eqn:QC; [assert (0 <? Z.land f 31 = false) as -> by lia; reflexivity|]. assert (0 <? Z.land f 31 = true) as -> by lia. cbn [andb].
  cbn [length Nat.leb] in G3. destruct G3 as (e3 & R3 & G3 & V3 & T3). rewrite G3. rewrite skipn_cons, skipn_O in T3. replace (Z.land f 31 * 3) with (3 * Z.land f 31) by lia. set (n := Z.to_nat (3 * Z.land f 31)). pose proof (ep_read_gen e3 R3 T n V3) as G4. rewrite T3 in G4.
  destruct (n <=? length d)%nat; [destruct G4 as (e4 & R4 & G4 & _); rewrite G4; reflexivity | rewrite G4; reflexivity].
Qed.

(* ----- escaping *)
Lemma zeros_le z b : (z <= 2)%nat -> (zeros z b <= 2)%nat.
Proof. unfold zeros. destruct (b =? 0); lia. Qed.
Lemma unescape_escape l : forall z, unescape z (escape z l) = l.
Proof.
  induction l as [|b l IH]; intros z; [reflexivity|]. cbn [escape]. destruct ((z =? 2)%nat && (b <=? 3)) eqn:Q.
  - cbn [unescape]. assert ((z =? 2)%nat && (3 =? 3) = true) as -> by lia. cbn [Nat.eqb andb]. rewrite IH. reflexivity.
  - cbn [unescape]. assert ((z =? 2)%nat && (b =? 3) = false) as -> by lia. rewrite IH. reflexivity.
Qed.
Lemma unescape_app a : forall z b, exists z', unescape z (a ++ b) = unescape z a ++ unescape z' b.
Proof.
  induction a as [|x a IH]; intros z b; [exists z; reflexivity|]. cbn [app unescape]. destruct (_ && _); [apply IH|]. destruct (IH (zeros z x) b) as (z' & E). exists z'. rewrite E. reflexivity.
Qed.
Lemma escape_app a : forall z b, exists z', escape z (a ++ b) = escape z a ++ escape z' b.
Proof.
  induction a as [|x a IH]; intros z b; [exists z; reflexivity|]. cbn [app escape]. destruct (_ && _); [destruct (IH (zeros 0 x) b) as (z' & E) | destruct (IH (zeros z x) b) as (z' & E)]; exists z'; rewrite E; reflexivity.
Qed.
Lemma escape_bytes l : forall z, Forall is_byte l -> Forall is_byte (escape z l).
Proof. induction l as [|b l IH]; intros z H; [constructor|]. inversion H; subst. cbn [escape]. destruct (_ && _); repeat (constructor; [assumption || (unfold is_byte; lia)|]); apply IH; assumption. Qed.

(* ----- the captions in the first bytes *)
Lemma firstn_more {A} n (a b : list A) : (n <= length a)%nat -> firstn n (a ++ b) = firstn n a.
Proof. intros H. rewrite firstn_app. replace (n - length a)%nat with O by lia. rewrite firstn_O, app_nil_r. reflexivity. Qed.
Lemma skipn_more {A} n (a b : list A) : (n <= length a)%nat -> skipn n (a ++ b) = skipn n a ++ b.
Proof. intros H. rewrite skipn_app. replace (n - length a)%nat with O by lia. rewrite skipn_O. reflexivity. Qed.
Lemma captions_more a b d : captions_of a = Some d -> captions_of (a ++ b) = Some d.
Proof.
  unfold captions_of. destruct (list_eq_dec Z.eq_dec (firstn 8 a) cc_header) as [E|E]; [|discriminate]. assert (8 <= length a)%nat as L. { apply (f_equal (@length Z)) in E. rewrite firstn_length in E. cbn [cc_header length] in E. lia. }
  rewrite (firstn_more 8 a b L), (skipn_more 8 a b L). destruct (list_eq_dec Z.eq_dec (firstn 8 a) cc_header) as [_|N]; [|congruence]. destruct (skipn 8 a) as [|f [|em w]]; try discriminate. cbn [app]. cbv zeta.
  destruct (Z.testbit f 6 && (0 <? Z.land f 31)); cbn [andb]; [|discriminate]. set (n := Z.to_nat (3 * Z.land f 31)). destruct (n <=? length w)%nat eqn:Q; [|discriminate]. rewrite app_length. assert (n <=? length w + length b = true)%nat as -> by lia. rewrite firstn_more by lia. tauto.
Qed.
Lemma captions_length a d : captions_of a = Some d -> (10 + length d <= length a)%nat.
Proof.
  unfold captions_of. destruct (list_eq_dec Z.eq_dec (firstn 8 a) cc_header) as [E|E]; [|discriminate]. destruct (skipn 8 a) as [|f [|em w]] eqn:QS; try discriminate. cbv zeta. destruct (Z.testbit f 6 && (0 <? Z.land f 31)); cbn [andb]; [|discriminate]. set (n := Z.to_nat (3 * Z.land f 31)). destruct (n <=? length w)%nat eqn:Q; [|discriminate]. intros H. injection H as <-.
  apply (f_equal (@length Z)) in QS. rewrite skipn_length in QS. cbn [length] in QS. rewrite firstn_length. lia.
Qed.
Lemma captions_first a b d : captions_of (a ++ b) = Some d -> (10 + length d <= length a)%nat -> captions_of a = Some d.
Proof.
  unfold captions_of. intros H L. rewrite (firstn_more 8 a b ltac:(lia)), (skipn_more 8 a b ltac:(lia)) in H. destruct (list_eq_dec Z.eq_dec (firstn 8 a) cc_header) as [E|E]; [|discriminate]. assert (length (skipn 8 a) = length a - 8)%nat as LS by apply skipn_length. destruct (skipn 8 a) as [|f [|em w]]; cbn [length] in LS; try lia. cbn [app] in H. cbv zeta in *.
  destruct (Z.testbit f 6 && (0 <? Z.land f 31)); cbn [andb] in *; [|discriminate]. set (n := Z.to_nat (3 * Z.land f 31)) in *. destruct (n <=? length (w ++ b))%nat eqn:Q; [|discriminate]. injection H as <-. rewrite firstn_length in L. rewrite app_length in *. assert (n <=? length w = true)%nat as -> by lia. rewrite firstn_more by lia. reflexivity.
Qed.
Lemma captions_start p d : captions_of p = Some d -> exists r, p = 181 :: r.
Proof. unfold captions_of. destruct (list_eq_dec Z.eq_dec (firstn 8 p) cc_header) as [E|E]; [|discriminate]. intros _. destruct p as [|x p]; [discriminate E|]. cbn [firstn] in E. unfold cc_header in E. injection E as -> _. exists p. reflexivity. Qed.
Lemma captions_cut z p q : room_for_escapes p -> captions_of (unescape z (firstn (length p) (escape z (p ++ q)))) = captions_of p.
Proof.
  intros RM. destruct (escape_app p z q) as (z' & ->). pose proof (escape_length p z) as EL. rewrite firstn_more by exact EL. set (A := firstn (length p) (escape z p)). set (B := skipn (length p) (escape z p)).
  assert (escape z p = A ++ B) as AB by (symmetry; apply firstn_skipn). pose proof (unescape_escape p z) as UE. rewrite AB in UE. destruct (unescape_app A z B) as (z2 & E2). rewrite E2 in UE. set (U := unescape z A) in *. set (V := unescape z2 B) in *.
  assert (length V <= length B)%nat as LV by apply unescape_length. assert (length A = length p) as LA by (unfold A; rewrite firstn_length; lia). assert (length p = length U + length V)%nat as LP by (rewrite <- UE at 1; apply app_length).
  assert (length (escape z p) = length A + length B)%nat as LE by (rewrite AB at 1; apply app_length). destruct (captions_of p) as [d|] eqn:Q.
  - apply (captions_first U V d); [rewrite UE; exact Q|]. specialize (RM d Q). destruct (captions_start p d Q) as (r & Ep). assert (escape z p = escape 0 p) as EZ. { rewrite Ep. cbn [escape]. change (181 <=? 3) with false. rewrite !andb_false_r. reflexivity. } rewrite EZ in LE. lia.
  - destruct (captions_of U) as [d|] eqn:QU; [|reflexivity]. pose proof (captions_more U V d QU) as C. rewrite UE, Q in C. discriminate C.
Qed.

(* ----- messages *)
Lemma read_ff_esc k : forall fuel e r L T v, eview e (repeat 255 k ++ [r] ++ L) T -> 0 <= r < 255 -> 0 <= v -> v + 255 * Z.of_nat k + r < 2 ^ 32 -> (k < fuel)%nat ->
  exists e', read_ff fuel e v = Some (v + 255 * Z.of_nat k + r, e') /\ eview e' L T.
Proof.
  induction k as [|k IH]; intros fuel e r L T v V Hr Hv B F; (destruct fuel as [|fuel]; [lia|]); cbn [read_ff].
  - cbn [repeat app] in V. destruct (ep_read_esc e [r] L T V) as (e' & R1 & R2). cbn [length] in R1. rewrite R1. cbv zeta. cbn [hd]. assert (r =? 255 = false) as -> by lia. exists e'. split; [|exact R2]. f_equal. f_equal. unfold u32. rewrite Z.mod_small by lia. lia.
  - cbn [repeat] in V. change ((255 :: repeat 255 k) ++ [r] ++ L) with ([255] ++ (repeat 255 k ++ [r] ++ L)) in V. destruct (ep_read_esc e [255] (repeat 255 k ++ [r] ++ L) T V) as (e1 & R1 & R2). cbn [length] in R1. rewrite R1. cbv zeta. cbn [hd]. change (255 =? 255) with true. cbv iota.
    assert (u32 (v + 255) = v + 255) as -> by (unfold u32; apply Z.mod_small; lia). destruct (IH fuel e1 r L T (v + 255) R2 Hr ltac:(lia) ltac:(lia) ltac:(lia)) as (e' & X1 & X2). exists e'. rewrite X1. split; [f_equal; f_equal; lia | exact X2].
Qed.
Lemma read_ff_ok n e L T : eview e (ff n ++ L) T -> 0 <= n < 2 ^ 32 -> exists e', read_ff (S (Z.to_nat (e_left e))) e 0 = Some (n, e') /\ eview e' L T.
Proof.
  intros V Hn. unfold ff in V. rewrite <- app_assoc in V. pose proof (Z.div_mod n 255 ltac:(lia)) as DM. pose proof (Z.mod_pos_bound n 255 ltac:(lia)) as MB. pose proof (Z.div_pos n 255 ltac:(lia) ltac:(lia)) as DP.
  destruct (read_ff_esc (Z.to_nat (n / 255)) (S (Z.to_nat (e_left e))) e (n mod 255) L T 0 V MB ltac:(lia) ltac:(lia)) as (e' & X1 & X2).
  { destruct V as (_ & V2 & _ & _). rewrite V2. pose proof (escape_length (repeat 255 (Z.to_nat (n / 255)) ++ [n mod 255] ++ L) (zs (e_three e))) as EL. rewrite !app_length, repeat_length in EL. lia. }
  exists e'. rewrite X1. split; [f_equal; f_equal; lia | exact X2].
Qed.
Lemma ff_length n : (1 <= length (ff n))%nat.
Proof. unfold ff. rewrite app_length. cbn [length]. lia. Qed.
Lemma captions_cons m ms : captions (m :: ms) = (if fst m =? 4 then match captions_of (snd m) with Some d => [d] | None => [] end else []) ++ captions ms.
Proof. reflexivity. Qed.

Lemma sei_ok ms : forall fuel e T, eview e (rbsp ms) T -> Forall message_ok ms -> (length ms <= fuel)%nat -> sei_nal fuel e = captions ms.
Proof.
  induction ms as [|(ty, p) ms IH]; intros fuel e T V OK F.
  - destruct fuel as [|fuel]; [reflexivity|]. cbn [sei_nal]. destruct V as (_ & V2 & _). change (rbsp []) with [128] in V2. rewrite V2. cbn [escape]. change (128 <=? 3) with false. rewrite andb_false_r. reflexivity.
  - inversion OK as [|? ? (O1 & O2 & O3 & O4) OK']; subst. cbn [fst snd] in *. destruct fuel as [|fuel]; [cbn [length] in F; lia|]. cbn [length] in F. assert (rbsp ((ty, p) :: ms) = ff ty ++ ff (Z.of_nat (length p)) ++ p ++ rbsp ms) as RB. { unfold rbsp. cbn [map concat]. unfold message. cbn [fst snd]. rewrite <- !app_assoc. reflexivity. } rewrite RB in V.
    cbn [sei_nal]. assert (e_left e <? 2 = false) as ->. { destruct V as (_ & V2 & _ & _). rewrite V2. pose proof (escape_length (ff ty ++ ff (Z.of_nat (length p)) ++ p ++ rbsp ms) (zs (e_three e))) as EL. rewrite !app_length in EL. pose proof (ff_length ty). pose proof (ff_length (Z.of_nat (length p))). lia. }
    destruct (read_ff_ok ty e _ T V O1) as (e1 & X1 & V1). rewrite X1. destruct (read_ff_ok (Z.of_nat (length p)) e1 _ T V1 ltac:(lia)) as (e2 & X2 & V2). rewrite X2. rewrite Nat2Z.id. destruct (ep_read_esc e2 p (rbsp ms) T V2) as (e3 & X3 & V3). unfold ep_skip. rewrite X3. rewrite captions_cons. cbn [fst snd].
    rewrite (IH fuel e3 T V3 OK' ltac:(lia)). change USER_DATA_REGISTERED with 4. destruct (ty =? 4); cbn [negb]; [|reflexivity].
    destruct V2 as (A1 & A2 & A3 & A4). set (z := zs (e_three e2)) in *. pose proof (escape_length (p ++ rbsp ms) z) as EL. rewrite app_length in EL.
    rewrite (udr_exact (Ep (e_base e2) (e_three e2) (Z.of_nat (length p))) (firstn (length p) (escape z (p ++ rbsp ms))) (skipn (length p) (escape z (p ++ rbsp ms)) ++ T)).
    + unfold text. cbn [e_three]. fold z. rewrite (captions_cut z p (rbsp ms) O4). reflexivity.
    + unfold view. cbn [e_base e_left e_three]. split; [rewrite A1, app_assoc, firstn_skipn; reflexivity|]. split; [rewrite firstn_length; lia|]. split; [exact A3|]. pose proof (escape_bytes _ z A4) as EB. rewrite <- (firstn_skipn (length p)) in EB. apply Forall_app in EB. tauto.
Qed.

(* ----- frames *)
Lemma message_length m : (2 <= length (message m))%nat.
Proof. unfold message. rewrite !app_length. pose proof (ff_length (fst m)). pose proof (ff_length (Z.of_nat (length (snd m)))). lia. Qed.
Lemma rbsp_length ms : (2 * length ms < length (rbsp ms))%nat.
Proof. unfold rbsp. rewrite app_length. cbn [length]. induction ms as [|m ms IH]; [cbn; lia|]. cbn [map concat length]. rewrite app_length. pose proof (message_length m). lia. Qed.
Lemma ff_bytes n : 0 <= n -> Forall is_byte (ff n).
Proof. intros H. unfold ff. apply Forall_app. split; [apply Forall_forall; intros x Hx; apply repeat_spec in Hx; subst x; unfold is_byte; lia|]. constructor; [|constructor]. pose proof (Z.mod_pos_bound n 255 ltac:(lia)). unfold is_byte. lia. Qed.
Lemma rbsp_bytes ms : Forall message_ok ms -> Forall is_byte (rbsp ms).
Proof.
  intros H. unfold rbsp. apply Forall_app. split; [|constructor; [unfold is_byte; lia | constructor]]. induction H as [|m ms (O1 & O2 & O3 & _) H IH]; [constructor|]. cbn [map concat]. apply Forall_app. split; [|exact IH]. unfold message. apply Forall_app. split; [apply ff_bytes; lia|]. apply Forall_app. split; [apply ff_bytes; lia | exact O3].
Qed.
Lemma header_escape h L : (1 <= length h <= 2)%nat -> last h 0 <> 0 -> h ++ escape 0 L = escape 0 (h ++ L).
Proof.
  intros H N. destruct h as [|a [|b [|c h]]]; cbn [length] in H; try lia; cbn [last] in N; cbn [app escape Nat.eqb andb].
  - unfold zeros. assert (a =? 0 = false) as -> by lia. reflexivity.
  - assert ((zeros 0 a =? 2)%nat = false) as -> by (unfold zeros; destruct (a =? 0); reflexivity). cbn [andb]. assert (zeros (zeros 0 a) b = O) as -> by (unfold zeros; assert (b =? 0 = false) as -> by lia; reflexivity). reflexivity.
Qed.
Lemma header_unescape n d : (1 <= n <= 2)%nat -> (n <= length d)%nat -> (n <= length (unescape 0 d))%nat /\ firstn n (unescape 0 d) = firstn n d.
Proof.
  intros H L. destruct d as [|a d]; [cbn [length] in L; lia|]. cbn [unescape Nat.eqb andb length]. destruct n as [|[|[|n]]]; try lia; [cbn; split; [lia | reflexivity]|]. destruct d as [|b d]; [cbn [length] in L; lia|]. cbn [unescape]. assert ((zeros 0 a =? 2)%nat = false) as -> by (unfold zeros; destruct (a =? 0); reflexivity). cbn [andb length firstn]. split; [lia | reflexivity].
Qed.
Lemma frame_ok c us : forall fuel r, (1 <= c_size_bytes c)%nat -> (1 <= c_header c <= 2)%nat -> Forall (unit_ok (c_header c) (c_size_bytes c) (is_sei c)) us -> r <> [] -> concat r = frame (c_size_bytes c) us -> (length (concat r) <= fuel)%nat ->
  process_frame fuel c r = frame_captions us.
Proof.
  induction us as [|u us IH]; intros fuel r SB HS OK NE E F.
  - destruct fuel as [|fuel]; [reflexivity|]. cbn [process_frame]. rewrite (chain_read_end r (c_size_bytes c) E ltac:(lia)). reflexivity.
  - inversion OK as [|? ? (O1 & O2) OK']; subst. set (d := unit_bytes u) in *. assert (frame (c_size_bytes c) (u :: us) = be (c_size_bytes c) (Z.of_nat (length d)) ++ d ++ frame (c_size_bytes c) us) as FE. { unfold frame. cbn [map concat]. fold d. rewrite <- app_assoc. reflexivity. } rewrite FE in E.
    assert (length (be (c_size_bytes c) (Z.of_nat (length d))) = c_size_bytes c) as LB by apply be_length. assert (length (concat r) = c_size_bytes c + (length d + length (frame (c_size_bytes c) us)))%nat as LC by (rewrite E, !app_length, LB; reflexivity).
    destruct fuel as [|fuel]; [lia|]. cbn [process_frame]. destruct (chain_read_ok r _ _ NE E) as (r1 & R1 & R2 & R3). rewrite LB in R1. rewrite R1. cbv zeta. rewrite unbe_be, Z.mod_small by lia.
    assert (c_header c <= length d)%nat as HD. { unfold d. destruct u as [h ms|b]; cbn [unit_bytes]; [|tauto]. destruct O2 as (O2 & _). rewrite app_length. lia. }
    assert (Z.of_nat (length d) <? Z.of_nat (c_header c) = false) as -> by lia. rewrite Nat2Z.id, chain_skip_read. destruct (chain_read_ok r1 d _ R3 R2) as (r2 & S1 & S2 & S3). rewrite S1.
    change (frame_captions (u :: us)) with (match u with Sei _ ms => captions ms | Other _ => [] end ++ frame_captions us).
    assert (process_frame fuel c r2 = frame_captions us) as FI by (apply IH; try assumption; rewrite S2; lia). rewrite FI. clear FI.
    set (e0 := ep_init r1 (Z.of_nat (length d))). assert (zs (e_three e0) = O) as Z0 by reflexivity. destruct u as [h ms|b]; cbn [unit_bytes] in d.
    + destruct O2 as (P1 & P2 & P3 & P4 & P5). assert (eview e0 (h ++ rbsp ms) (frame (c_size_bytes c) us)) as EV. { unfold eview. rewrite Z0, <- (header_escape h (rbsp ms) ltac:(lia) P3). unfold e0, ep_init. cbn [e_base e_left e_three]. split; [exact R2|]. split; [reflexivity|]. split; [lia|]. apply Forall_app. split; [exact P2 | apply rbsp_bytes, P5]. }
      destruct (ep_read_esc e0 h _ _ EV) as (e1 & X1 & X2). rewrite P1 in X1. rewrite X1. rewrite P4. rewrite (sei_ok ms (length d) e1 _ X2 P5); [reflexivity|]. unfold d. rewrite app_length. pose proof (escape_length (rbsp ms) 0). pose proof (rbsp_length ms). lia.
    + destruct O2 as (P1 & P2 & P3). assert (view e0 b (frame (c_size_bytes c) us)) as EV. { unfold view, e0, ep_init. cbn [e_base e_left e_three]. split; [exact R2|]. split; [reflexivity|]. split; [lia | exact P2]. }
      pose proof (ep_read_gen e0 b _ (c_header c) EV) as G. unfold text in G. rewrite Z0 in G. destruct (header_unescape (c_header c) b HS P1) as [H1 H2]. assert (c_header c <=? length (unescape 0 b) = true)%nat as Q by lia. rewrite Q in G. destruct G as (e1 & R' & X1 & _). rewrite X1, H2. assert (hd 0 (firstn (c_header c) b) = hd 0 b) as -> by (destruct (c_header c); [lia|]; destruct b; reflexivity). rewrite P3. reflexivity.
Qed.
