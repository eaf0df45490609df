(* The name of H.265. *)
From Coq Require Import ZArith List Bool Lia ZifyBool Arith.
From Verif Require Import Bytes NameModel NameSpec NameProofs.
Import ListNotations.
Open Scope Z_scope.

Definition vz (r : Z) (l : list Z) : Z := fold_left (fun v b => v * 256 + b) l r.
Lemma vz_gen l : forall r, vz r l = r * 256 ^ Z.of_nat (length l) + vz 0 l.
Proof.
  unfold vz. induction l as [|b l IH]; intros r; [cbn; lia|]. cbn [fold_left length]. rewrite IH, (IH (0 * 256 + b)). replace (Z.of_nat (S (length l))) with (Z.of_nat (length l) + 1) by lia. rewrite Z.pow_add_r by lia. ring.
Qed.
Lemma vz_cons b l : vz 0 (b :: l) = b * 256 ^ Z.of_nat (length l) + vz 0 l.
Proof. change (vz 0 (b :: l)) with (vz (0 * 256 + b) l). rewrite vz_gen. f_equal. Qed.
Lemma vz_bound l : Forall is_byte l -> 0 <= vz 0 l < 256 ^ Z.of_nat (length l).
Proof.
  induction 1 as [|b l Hb _ IH]; [cbn; lia|]. rewrite vz_cons. cbn [length]. replace (Z.of_nat (S (length l))) with (Z.of_nat (length l) + 1) by lia. rewrite Z.pow_add_r by lia. change (256 ^ 1) with 256. unfold is_byte in Hb. nia.
Qed.
Lemma vz_zero l : Forall is_byte l -> (vz 0 l =? 0) = forallb (Z.eqb 0) l.
Proof.
  induction 1 as [|b l Hb Hl IH]; [reflexivity|]. rewrite vz_cons. cbn [forallb]. pose proof (vz_bound l Hl). unfold is_byte in Hb. pose proof (Z.pow_pos_nonneg 256 (Z.of_nat (length l)) ltac:(lia) ltac:(lia)). destruct (0 =? b) eqn:Q.
  - assert (b = 0) as -> by lia. rewrite <- IH, Z.mul_0_l, Z.add_0_l. reflexivity.
  - cbn [andb]. nia.
Qed.
Lemma constraints_ok l : forall H, 0 <= H -> Forall is_byte l -> constraints_loop (length l) (H * 256 ^ Z.of_nat (length l) + vz 0 l) = concat (map (fun b => [46] ++ hex2 b) (strip l)).
Proof.
  induction l as [|b l IH]; intros H HH B; [reflexivity|]. inversion B as [|? ? Bb Bl]; subst. cbn [length constraints_loop]. set (n := Z.of_nat (length l)). set (F := H * 256 ^ Z.of_nat (S (length l)) + vz 0 (b :: l)). pose proof (vz_bound (b :: l) B) as VB. cbn [length] in VB. pose proof (vz_bound l Bl) as VL. fold n in VL.
  assert (256 ^ Z.of_nat (S (length l)) = 256 ^ n * 256) as P1 by (unfold n; replace (Z.of_nat (S (length l))) with (Z.of_nat (length l) + 1) by lia; rewrite Z.pow_add_r by lia; reflexivity). pose proof (Z.pow_pos_nonneg 256 n ltac:(lia) ltac:(lia)) as PP. assert (2 ^ (8 * n) = 256 ^ n) as P2 by (rewrite Z.pow_mul_r by lia; reflexivity).
  assert (2 ^ (8 * n + 8) = 256 ^ n * 256) as P3 by (rewrite Z.pow_add_r, P2 by lia; reflexivity). assert (Z.land F (2 ^ (8 * n + 8) - 1) = vz 0 (b :: l)) as ->. { change (2 ^ (8 * n + 8) - 1) with (Z.pred (2 ^ (8 * n + 8))). rewrite <- Z.ones_equiv, Z.land_ones by lia. rewrite P3. unfold F. rewrite P1, Z.add_comm, Z.mod_add by lia. apply Z.mod_small. lia. }
  rewrite (vz_zero (b :: l) B). cbn [strip]. destruct (forallb (Z.eqb 0) (b :: l)); [reflexivity|]. assert (F = (H * 256 + b) * 256 ^ n + vz 0 l) as FE by (unfold F; rewrite P1, vz_cons; fold n; ring). assert (Z.land (Z.shiftr F (8 * n)) 255 = b) as ->.
  { rewrite Z.shiftr_div_pow2, P2, FE by lia. rewrite Z.div_add_l, (Z.div_small (vz 0 l)) by lia. change 255 with (Z.ones 8). rewrite Z.land_ones by lia. change (2 ^ 8) with 256. unfold is_byte in Bb. rewrite Z.add_0_r, Z.add_comm, Z.mod_add by lia. apply Z.mod_small. lia. }
  rewrite (hex02_ok b Bb), FE. unfold is_byte in Bb. unfold n. rewrite (IH (H * 256 + b) ltac:(lia) Bl). cbn [map concat]. unfold dot. rewrite <- app_assoc. reflexivity.
Qed.

Lemma four_bytes compat : 0 <= compat < 2 ^ 32 -> exists a b c d, be 4 compat = [a; b; c; d] /\ is_byte a /\ is_byte b /\ is_byte c /\ is_byte d /\ ((a * 256 + b) * 256 + c) * 256 + d = compat.
Proof.
  intros H. pose proof (be_length 4 compat) as L. assert (Forall is_byte (be 4 compat)) as B by (unfold be; apply Forall_rev, le_bytes). assert (unbe (be 4 compat) = compat) as U by (rewrite unbe_be; apply Z.mod_small; exact H). destruct (be 4 compat) as [|a [|b [|c [|d [|e r]]]]]; cbn [length] in L; try lia. inversion B as [|? ? Ba B1]; subst. inversion B1 as [|? ? Bb B2]; subst. inversion B2 as [|? ? Bc B3]; subst. inversion B3 as [|? ? Bd _]; subst. exists a, b, c, d. split; [reflexivity|]. unfold unbe in *. cbn [rev app unle] in *. repeat (split; [assumption|]). lia.
Qed.
Lemma first_byte x : is_byte x -> numf 0 [Z.testbit x 7; Z.testbit x 6] = x / 64 /\ numf 0 [Z.testbit x 5] = x / 32 mod 2 /\ numf 0 (lows 5 x) = x mod 32.
Proof.
  intros H. assert ((numf 0 [Z.testbit x 7; Z.testbit x 6] =? x / 64) && (numf 0 [Z.testbit x 5] =? x / 32 mod 2) && (numf 0 (lows 5 x) =? x mod 32) = true) as E; [|lia]. revert x H. apply (byte_cases (fun x => (numf 0 [Z.testbit x 7; Z.testbit x 6] =? x / 64) && (numf 0 [Z.testbit x 5] =? x / 32 mod 2) && (numf 0 (lows 5 x) =? x mod 32))). vm_compute. reflexivity.
Qed.
Lemma first_constraint c : is_byte c -> Z.lor (Z.lor (Z.lor (Z.lor (Z.shiftl (numf 0 [Z.testbit c 7]) 7) (Z.shiftl (numf 0 [Z.testbit c 6]) 6)) (Z.shiftl (numf 0 [Z.testbit c 5]) 5)) (Z.shiftl (numf 0 [Z.testbit c 4]) 4)) (c mod 16) mod 256 = c.
Proof.
  intros H. apply Z.eqb_eq. revert c H. apply (byte_cases (fun c => Z.lor (Z.lor (Z.lor (Z.lor (Z.shiftl (numf 0 [Z.testbit c 7]) 7) (Z.shiftl (numf 0 [Z.testbit c 6]) 6)) (Z.shiftl (numf 0 [Z.testbit c 5]) 5)) (Z.shiftl (numf 0 [Z.testbit c 4]) 4)) (c mod 16) mod 256 =? c)). vm_compute. reflexivity.
Qed.
Definition hv (x q0 q1 q2 q3 c0 : Z) (cs : list Z) (level : Z) : list Z :=
  [numf 0 [Z.testbit x 7; Z.testbit x 6]; numf 0 [Z.testbit x 5]; numf 0 (lows 5 x); numf 0 (concat (map (lows 8) [q0; q1; q2; q3])); numf 0 [Z.testbit c0 7]; numf 0 [Z.testbit c0 6]; numf 0 [Z.testbit c0 5]; numf 0 [Z.testbit c0 4]; numf 0 (lows 4 c0 ++ concat (map (lows 8) cs)); numf 0 (lows 8 level)].
Lemma hevc_fields v x q0 q1 q2 q3 c0 c1 c2 c3 c4 c5 level rest : (9 <= length rest)%nat ->
  exists vs, hevc_parse (v :: x :: q0 :: q1 :: q2 :: q3 :: c0 :: c1 :: c2 :: c3 :: c4 :: c5 :: level :: rest) = Some (numf 0 (lows 8 v) :: hv x q0 q1 q2 q3 c0 [c1; c2; c3; c4; c5] level ++ vs).
Proof.
  intros L. set (d := v :: x :: q0 :: q1 :: q2 :: q3 :: c0 :: c1 :: c2 :: c3 :: c4 :: c5 :: level :: rest). unfold hevc_parse. destruct (init_bits d) as (E & K & LB). pose proof (gets_ok hevc_widths (rd_init d) K) as G. assert (Forall (fun w => w <= 64)%nat hevc_widths) as F by (unfold hevc_widths; repeat (apply Forall_cons; [lia|]); constructor). specialize (G F). change (fold_right Nat.add 0%nat hevc_widths) with 176%nat in G. rewrite LB in G.
  assert (176 <=? 8 * length d = true)%nat as Q by (unfold d; cbn [length]; lia). rewrite Q in G. destruct G as (s' & G1 & G2). rewrite G1, G2. cbn [rd_init r_eof]. rewrite E. unfold d. cbn [map concat].
  exists (cut [4; 12; 6; 2; 6; 2; 5; 3; 5; 3; 16; 2; 3; 1; 2]%nat (concat (map (lows 8) rest))). reflexivity.
Qed.
Lemma hex_ok n : 0 <= n < 2 ^ 32 -> number_text 16 n (hex n) /\ (length (hex n) <= 8)%nat.
Proof. intros H. destruct (hex_f_ok 8 n H ltac:(lia)) as (X1 & _ & X3). split; assumption. Qed.
Local Opaque dec hex flip32 hex02.
Lemma hevc_name_ok format version space tier idc compat c0 cs level rest : 0 <= space < 4 -> 0 <= idc < 32 -> 0 <= compat < 2 ^ 32 -> is_byte c0 -> Forall is_byte cs -> length cs = 5%nat -> is_byte level -> (9 <= length rest)%nat ->
  exists name, hevc_name format (hevc_head version space tier idc compat (c0 :: cs) level ++ rest) = Some name /\ hevc_text format space tier idc compat (c0 :: cs) level name /\ (length name <= length format + 40)%nat.
Proof.
  intros Hs Hi Hc B0 BC LC BL LR. destruct (four_bytes compat Hc) as (q0 & q1 & q2 & q3 & QE & Q0 & Q1 & Q2 & Q3 & QV). destruct cs as [|c1 [|c2 [|c3 [|c4 [|c5 [|c6 cs]]]]]]; cbn [length] in LC; try lia. set (x := space * 64 + (if tier then 32 else 0) + idc). unfold hevc_name, hevc_head. fold x. rewrite QE. cbn [app].
  destruct (hevc_fields version x q0 q1 q2 q3 c0 c1 c2 c3 c4 c5 level rest LR) as (vs & ->). unfold hv. cbn [app]. assert (is_byte x) as BX by (unfold is_byte, x; destruct tier; lia). destruct (first_byte x BX) as (-> & -> & ->). assert (Forall is_byte [q0; q1; q2; q3]) as BQ by (constructor; [assumption|]; constructor; [assumption|]; constructor; [assumption|]; constructor; [assumption|]; constructor). rewrite (numf_bytes [q0; q1; q2; q3]) by exact BQ. cbn [fold_left]. rewrite numf_app, numf_bytes by exact BC. rewrite (numf_lows 4 c0), (numf_byte 0 level BL). change (2 ^ Z.of_nat 4) with 16. rewrite Z.mul_0_l, !Z.add_0_l, QV.
  assert (x / 64 = space) as -> by (symmetry; apply Z.div_unique with (r := (if tier then 32 else 0) + idc); unfold x; destruct tier; lia). assert (x / 32 mod 2 = if tier then 1 else 0) as ->. { assert (x / 32 = 2 * space + (if tier then 1 else 0)) as ->; [symmetry; apply Z.div_unique with (r := idc); unfold x; destruct tier; lia|]. destruct tier; lia. } assert (x mod 32 = idc) as ->. { symmetry. apply Z.mod_unique with (q := 2 * space + (if tier then 1 else 0)); unfold x; destruct tier; lia. }
  fold (vz (c0 mod 16) [c1; c2; c3; c4; c5]). rewrite vz_gen. change (Z.of_nat (length [c1; c2; c3; c4; c5])) with 5. pose proof (Z.mod_pos_bound c0 16 ltac:(lia)) as MB. pose proof (vz_bound [c1; c2; c3; c4; c5] BC) as VB. change (256 ^ Z.of_nat (length [c1; c2; c3; c4; c5])) with (2 ^ 40) in VB. assert (Z.shiftr (c0 mod 16 * 256 ^ 5 + vz 0 [c1; c2; c3; c4; c5]) 40 = c0 mod 16) as ->. { rewrite Z.shiftr_div_pow2 by lia. change (256 ^ 5) with (2 ^ 40). rewrite Z.div_add_l, Z.div_small by lia. lia. }
  rewrite (first_constraint c0 B0), (hex02_ok c0 B0). pose proof (constraints_ok [c1; c2; c3; c4; c5] (c0 mod 16) ltac:(lia) BC) as CO. change (length [c1; c2; c3; c4; c5]) with 5%nat in CO. change (Z.of_nat 5) with 5 in CO. rewrite CO.
  destruct (dec_ok idc ltac:(unfold is_byte; lia)) as [D1 D2]. destruct (dec_ok level BL) as [D3 D4]. destruct (flip_ok compat ltac:(lia)) as [F1 F2]. destruct (hex_ok (flip32 compat) F1) as (X1 & X3). eexists. split; [reflexivity|]. split.
  - exists (dec idc), (hex (flip32 compat)), (flip32 compat), (dec level). split; [exact D1|]. split; [split; assumption|]. split; [exact X1|]. split; [exact D3|]. cbn [hd tl]. unfold dot. replace (if (if tier then 1 else 0) =? 0 then 76 else 72) with (if tier then 72 else 76) by (destruct tier; reflexivity). assert (space = 0 \/ space = 1 \/ space = 2 \/ space = 3) as [-> | [-> | [-> | ->]]] by lia; reflexivity.
  - assert (forall l, length (concat (map (fun b => [46%Z] ++ hex2 b) (strip l))) <= 3 * length l)%nat as SL. { induction l as [|b l IHl]; [cbn; lia|]. cbn [strip]. destruct (forallb (Z.eqb 0) (b :: l)); [cbn; lia|]. cbn [map concat length]. rewrite app_length. change (length ([46] ++ hex2 b)) with 3%nat. lia. }
    specialize (SL [c1; c2; c3; c4; c5]). change (length [c1; c2; c3; c4; c5]) with 5%nat in SL. set (E := concat (map (fun b => [46] ++ hex2 b) (strip [c1; c2; c3; c4; c5]))) in *. clearbody E. assert (length (hex2 c0) = 2%nat) as L2 by reflexivity. set (h2 := hex2 c0) in *. clearbody h2. set (h := hex (flip32 compat)) in *. clearbody h. set (di := dec idc) in *. set (dl := dec level) in *. clearbody di dl. set (t := if (if tier then 1 else 0) =? 0 then 76 else 72). clearbody t. set (sp := if 0 <? space then [65 + (space - 1)] else []). assert (length sp <= 1)%nat as LS by (unfold sp; destruct (0 <? space); cbn [length]; lia). clearbody sp.
    clear - X3 L2 D2 D4 SL LS. cbn [app]. rewrite ?app_length. cbn [length]. rewrite ?app_length. cbn [length]. rewrite ?app_length. cbn [length]. rewrite ?app_length. cbn [length]. rewrite ?app_length. cbn [length]. clear - X3 L2 D2 D4 SL LS. lia.
Qed.

Lemma hevc_short d : (length d < 22)%nat -> hevc_parse d = None.
Proof.
  intros L. unfold hevc_parse. destruct (init_bits d) as (E & K & LB). pose proof (gets_ok hevc_widths (rd_init d) K) as G. assert (Forall (fun w => w <= 64)%nat hevc_widths) as F by (unfold hevc_widths; repeat (apply Forall_cons; [lia|]); constructor). specialize (G F). change (fold_right Nat.add 0%nat hevc_widths) with 176%nat in G. rewrite LB in G. assert (176 <=? 8 * length d = false)%nat as Q by lia. rewrite Q in G. destruct (gets hevc_widths (rd_init d)) as (vs, s). cbn [snd] in G. rewrite G. reflexivity.
Qed.
Lemma hevc_split d : Forall is_byte d -> (22 <= length d)%nat -> exists version space tier idc compat constraints level rest,
  d = hevc_head version space tier idc compat constraints level ++ rest /\ 0 <= space < 4 /\ 0 <= idc < 32 /\ 0 <= compat < 2 ^ 32 /\ Forall is_byte constraints /\ length constraints = 6%nat /\ is_byte level /\ (9 <= length rest)%nat.
Proof.
  intros B L. destruct d as [|v [|x d]]; cbn [length] in L; try lia. inversion B as [|? ? Bv B1]; subst. inversion B1 as [|? ? Bx B2]; subst. clear B B1. assert (length (firstn 4 d) = 4%nat) as L4 by (rewrite firstn_length; lia). rewrite <- (firstn_skipn 4 d) in B2. apply Forall_app in B2. destruct B2 as [B4 B5]. assert (length (skipn 4 d) = length d - 4)%nat as LS by apply skipn_length.
  rewrite <- (firstn_skipn 6 (skipn 4 d)) in B5. apply Forall_app in B5. destruct B5 as [B6 B7]. assert (length (firstn 6 (skipn 4 d)) = 6%nat) as L6 by (rewrite firstn_length; lia). assert (length (skipn 6 (skipn 4 d)) = length d - 10)%nat as LT by (rewrite skipn_length; lia).
  assert (d = firstn 4 d ++ firstn 6 (skipn 4 d) ++ skipn 6 (skipn 4 d)) as E by (rewrite !firstn_skipn; reflexivity). destruct (skipn 6 (skipn 4 d)) as [|level rest]; cbn [length] in LT; [lia|]. inversion B7 as [|? ? Bl _]; subst. pose proof (unbe_bound _ B4) as UB. rewrite L4 in UB. assert (be 4 (unbe (firstn 4 d)) = firstn 4 d) as EB by (rewrite <- L4 at 1; apply be_unbe, B4).
  exists v, (x / 64), (x / 32 mod 2 =? 1), (x mod 32), (unbe (firstn 4 d)), (firstn 6 (skipn 4 d)), level, rest. unfold is_byte in Bx. split; [|split; [lia|]; split; [lia|]; split; [exact UB|]; split; [exact B6|]; split; [exact L6|]; split; [exact Bl | lia]].
  unfold hevc_head. rewrite EB. assert (x / 64 * 64 + (if x / 32 mod 2 =? 1 then 32 else 0) + x mod 32 = x) as -> by (destruct (x / 32 mod 2 =? 1) eqn:Q; lia). cbn [app]. rewrite E at 1. rewrite <- !app_assoc. reflexivity.
Qed.
