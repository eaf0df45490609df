(* Packets as a header and a payload, and what the bytes of one are read as. *)

From Coq Require Import ZArith List Bool Lia ZifyBool.
From Verif Require Import Lists TsModel TsSpec.
Import ListNotations.
Open Scope Z_scope.

(* The head of a PES packet: frame, aligned, length. *)
Definition hd : Type := (frame * bool * Z)%type.
Record pkt := Pkt { k_cc : Z; k_hd : option hd; k_stuff : nat; k_data : list Z }.

Definition af (t : strm) (h : option hd) (n : nat) : list Z :=
  match h with
  | Some (f, _, _) =>
      if t_pcr t then (7 + Z.of_nat n) :: 16 :: pcr_bytes (f_dts f + 4590) ++ repeat 255 n
      else match n with
           | O => []
           | S m => Z.of_nat m :: match m with O => [] | S x => 0 :: repeat 255 x end
           end
  | None =>
      match n with
      | O => []
      | S m => Z.of_nat m :: match m with O => [] | S x => 0 :: repeat 255 x end
      end
  end.

Definition pes_bytes (t : strm) (h : hd) : list Z :=
  let '(f, al, v) := h in
  [0; 0; 1; byte (t_sid t); byte (v / 256); byte v;
   if al then 132 else 128;
   if is_video t then 192 else 128;
   if is_video t then 10 else 5] ++
  pts_bytes (if is_video t then 3 else 2) (f_pts f + 9090) ++
  (if is_video t then pts_bytes 1 (f_dts f + 9090) else []).

Definition has_af (t : strm) (h : option hd) (n : nat) : bool :=
  match n with O => match h with Some _ => t_pcr t | None => false end | S _ => true end.

Definition wire (t : strm) (p : pkt) : list Z :=
  [71; t_pid t / 256 + (match k_hd p with Some _ => 64 | None => 0 end); t_pid t mod 256;
   16 + k_cc p mod 16 + (if has_af t (k_hd p) (k_stuff p) then 32 else 0)] ++
  af t (k_hd p) (k_stuff p) ++
  (match k_hd p with Some h => pes_bytes t h | None => [] end) ++ k_data p.

Definition hlen (t : strm) (p : pkt) : nat := match k_hd p with Some _ => hsize t | None => O end.

Definition good_strm (t : strm) : Prop := 0 <= t_pid t < 8192 /\ 0 <= t_sid t < 256.

Lemma len_pes t h : length (pes_bytes t h) = (14 + if is_video t then 5 else 0)%nat.
Proof. destruct h as [[f al] v]. unfold pes_bytes. destruct (is_video t); reflexivity. Qed.

Lemma len_af t h n :
  length (af t h n) = (n + match h with Some _ => if t_pcr t then 8 else 0 | None => 0 end)%nat.
Proof.
  unfold af. destruct h as [[[f al] v]|].
  - destruct (t_pcr t).
    + cbn [length pcr_bytes app]. rewrite repeat_length. lia.
    + destruct n as [|[|n]]; cbn [length]; rewrite ?repeat_length; lia.
  - destruct n as [|[|n]]; cbn [length]; rewrite ?repeat_length; lia.
Qed.

Lemma len_wire t p :
  length (wire t p) = (4 + hlen t p + k_stuff p + length (k_data p))%nat.
Proof.
  unfold wire, hlen, hsize. rewrite !app_length, len_af.
  destruct (k_hd p) as [h|]; [rewrite len_pes|]; cbn [length]; destruct (t_pcr t), (is_video t); lia.
Qed.

Lemma byte_id x : 0 <= x < 256 -> byte x = x.
Proof. apply Z.mod_small. Qed.

Lemma pid_hi t : good_strm t -> byte (t_pid t / 256) = t_pid t / 256.
Proof.
  intros [H _]. apply byte_id. split; [apply Z.div_pos; lia|].
  apply Z.div_lt_upper_bound; lia.
Qed.

Lemma wire_header t cc : good_strm t -> header t cc = wire t (Pkt cc None 0 []).
Proof.
  intros H. unfold header, wire. cbn [k_hd k_cc k_stuff k_data has_af af app].
  rewrite pid_hi by exact H. unfold byte. rewrite !Z.add_0_r. reflexivity.
Qed.

Lemma lor64 x : 0 <= x < 64 -> Z.lor x 64 = x + 64.
Proof.
  intros H. rewrite Z.add_comm, <- (Z.lor_comm 64 x).
  symmetry. rewrite Z.add_nocarry_lxor.
  - apply Z.lxor_lor. apply Z.bits_inj'. intros n Hn.
    rewrite Z.land_spec, Z.bits_0. change 64 with (2 ^ 6).
    rewrite Z.pow2_bits_eqb by lia. destruct (6 =? n) eqn:E; [|reflexivity].
    apply Z.eqb_eq in E. subst n. cbn [andb].
    destruct (Z.eq_dec x 0) as [->|]; [reflexivity|].
    rewrite Z.bits_above_log2; [reflexivity|lia|apply Z.log2_lt_pow2; lia].
  - apply Z.bits_inj'. intros n Hn.
    rewrite Z.land_spec, Z.bits_0. change 64 with (2 ^ 6).
    rewrite Z.pow2_bits_eqb by lia. destruct (6 =? n) eqn:E; [|reflexivity].
    apply Z.eqb_eq in E. subst n. cbn [andb].
    destruct (Z.eq_dec x 0) as [->|]; [reflexivity|].
    rewrite Z.bits_above_log2; [reflexivity|lia|apply Z.log2_lt_pow2; lia].
Qed.

Lemma lor32 x : 0 <= x < 32 -> Z.lor x 32 = x + 32.
Proof.
  intros H. assert (L : Z.land x 32 = 0).
  { apply Z.bits_inj'. intros n Hn.
    rewrite Z.land_spec, Z.bits_0. change 32 with (2 ^ 5).
    rewrite Z.pow2_bits_eqb by lia. destruct (5 =? n) eqn:E; [|apply andb_false_r].
    apply Z.eqb_eq in E. subst n. rewrite andb_true_r.
    destruct (Z.eq_dec x 0) as [->|]; [reflexivity|].
    rewrite Z.bits_above_log2; [reflexivity|lia|apply Z.log2_lt_pow2; lia]. }
  rewrite Z.add_nocarry_lxor by exact L. symmetry. apply Z.lxor_lor. exact L.
Qed.

Lemma land32_no x : 0 <= x < 32 -> Z.land x 32 = 0.
Proof.
  intros H. apply Z.bits_inj'. intros n Hn.
  rewrite Z.land_spec, Z.bits_0. change 32 with (2 ^ 5).
  rewrite Z.pow2_bits_eqb by lia. destruct (5 =? n) eqn:E; [|apply andb_false_r].
  apply Z.eqb_eq in E. subst n. rewrite andb_true_r.
  destruct (Z.eq_dec x 0) as [->|]; [reflexivity|].
  rewrite Z.bits_above_log2; [reflexivity|lia|apply Z.log2_lt_pow2; lia].
Qed.

Lemma land32_yes x : 0 <= x < 32 -> Z.land (x + 32) 32 = 32.
Proof.
  intros H. rewrite <- lor32 by exact H. rewrite Z.land_lor_distr_l, land32_no by exact H.
  reflexivity.
Qed.

Lemma cc16 x : 0 <= x mod 16 < 16.
Proof. apply Z.mod_pos_bound. lia. Qed.

Lemma wire_set_start t cc d :
  good_strm t ->
  firstn 4 (set_start t (wire t (Pkt cc None 0 d))) =
  [71; t_pid t / 256 + 64; t_pid t mod 256; 16 + cc mod 16 + (if t_pcr t then 32 else 0)].
Proof.
  intros [H _]. unfold wire. cbn [k_hd k_cc k_stuff k_data has_af af app set_start firstn].
  pose proof (cc16 cc).
  assert (0 <= t_pid t / 256 < 32) by (split; [apply Z.div_pos; lia | apply Z.div_lt_upper_bound; lia]).
  rewrite !Z.add_0_r, lor64 by lia. destruct (t_pcr t); [rewrite lor32 by lia|]; rewrite ?Z.add_0_r; reflexivity.
Qed.

Lemma pes_header_eq t f al :
  pes_header t f al = af t (Some (f, al, 0)) 0 ++ pes_bytes t (f, al, 0).
Proof.
  unfold pes_header, af, pes_bytes. destruct (t_pcr t); cbn [app repeat]; [|reflexivity].
  unfold pcr_bytes. cbn [app]. reflexivity.
Qed.

Lemma wire_insert t cc d f al :
  good_strm t ->
  firstn 4 (set_start t (wire t (Pkt cc None 0 d))) ++ pes_header t f al ++ d =
  wire t (Pkt cc (Some (f, al, 0)) 0 d).
Proof.
  intros H. rewrite wire_set_start by exact H. rewrite pes_header_eq.
  unfold wire. cbn [k_hd k_cc k_stuff k_data has_af]. rewrite <- !app_assoc. reflexivity.
Qed.

Lemma wire_skip4 t cc d : skipn 4 (wire t (Pkt cc None 0 d)) = d.
Proof. reflexivity. Qed.

Lemma wire_app t cc h n d x : wire t (Pkt cc h n d) ++ x = wire t (Pkt cc h n (d ++ x)).
Proof. unfold wire. cbn [k_hd k_cc k_stuff k_data]. rewrite <- !app_assoc. reflexivity. Qed.

Lemma wire_start t cc f :
  good_strm t ->
  set_start t (header t cc) ++ pes_header t f true = wire t (Pkt cc (Some (f, true, 0)) 0 []).
Proof.
  intros H. rewrite wire_header by exact H.
  rewrite <- (wire_insert t cc [] f true H), app_nil_r. f_equal.
Qed.

Lemma put16_wire t cc f al v d w :
  put16 (wire t (Pkt cc (Some (f, al, v)) 0 d)) (size_off t) w =
  wire t (Pkt cc (Some (f, al, w)) 0 d).
Proof.
  unfold put16, wire, size_off. cbn [k_hd k_cc k_stuff k_data has_af af pes_bytes].
  destruct (t_pcr t); unfold pcr_bytes; cbn [app repeat firstn skipn Nat.add]; reflexivity.
Qed.

Lemma byte16 v : 0 <= v < 65536 -> byte (v / 256) * 256 + byte v = v.
Proof.
  intros H. assert (0 <= v / 256 < 256) by (split; [apply Z.div_pos; lia | apply Z.div_lt_upper_bound; lia]).
  rewrite byte_id by lia. unfold byte. pose proof (Z.div_mod v 256). lia.
Qed.

Lemma get16_wire t cc f al v d :
  0 <= v < 65536 -> get16 (wire t (Pkt cc (Some (f, al, v)) 0 d)) (size_off t) = v.
Proof.
  intros H. unfold get16, wire, size_off. cbn [k_hd k_cc k_stuff k_data has_af af pes_bytes].
  destruct (t_pcr t); unfold pcr_bytes; cbn [app repeat nth Nat.add]; apply byte16; exact H.
Qed.

Lemma stuff_wire t cc h d n :
  (0 < n)%nat -> (length (wire t (Pkt cc h 0 d)) + n = 188)%nat ->
  add_stuffing (wire t (Pkt cc h 0 d)) n = wire t (Pkt cc h n d).
Proof.
  intros Hn HL. rewrite len_wire in HL. cbn [k_data k_stuff] in HL.
  unfold wire. cbn [k_hd k_cc k_stuff k_data].
  pose proof (cc16 cc) as C. destruct n as [|m]; [lia|].
  assert (NoAf : forall b0 b1 b2 r,
    add_stuffing (b0 :: b1 :: b2 :: 16 + cc mod 16 + 0 :: r) (S m) =
    b0 :: b1 :: b2 :: 16 + cc mod 16 + 32 ::
      (Z.of_nat m :: match m with O => [] | S x => 0 :: repeat 255 x end) ++ r).
  { intros. unfold add_stuffing. rewrite Z.add_0_r, land32_no, lor32 by lia. cbn [Z.eqb].
    replace (Z.of_nat (S m) - 1) with (Z.of_nat m) by lia.
    destruct m as [|x]; [reflexivity|].
    change (2 <=? S (S x))%nat with true. cbv iota.
    replace (S (S x) - 2)%nat with x by lia. reflexivity. }
  destruct h as [[[f al] v]|]; cbn [has_af af].
  - destruct (t_pcr t) eqn:Ep.
    + cbn [hlen k_hd] in HL. unfold hsize in HL. rewrite Ep in HL.
      cbn [app]. unfold add_stuffing. rewrite land32_yes by lia. cbn [Z.eqb].
      rewrite byte_id by lia. change (7 + Z.of_nat 0) with 7.
      replace (Z.to_nat 7) with 7%nat by reflexivity. unfold pcr_bytes.
      cbn [app firstn skipn repeat]. reflexivity.
    + cbn [app]. rewrite NoAf. reflexivity.
  - cbn [app]. rewrite NoAf. reflexivity.
Qed.

Lemma null_wire t cc :
  good_strm t ->
  71 :: byte (t_pid t / 256) :: byte (t_pid t) :: Z.lor (16 + cc mod 16) 32 :: 183 :: 0 :: repeat 255 182 =
  wire t (Pkt cc None 184 []).
Proof.
  intros H. pose proof (cc16 cc). rewrite lor32 by lia. rewrite pid_hi by exact H.
  unfold wire. cbn [k_hd k_cc k_stuff k_data has_af].
  change (af t None 184) with (183 :: 0 :: repeat 255 182).
  rewrite app_nil_r. cbn [app]. unfold byte. rewrite Z.add_0_r. reflexivity.
Qed.

(* ------------------------------------------------------------------ *)
(* Reading                                                              *)

Definition pkt_tsp (t : strm) (p : pkt) : tsp :=
  Tsp (t_pid t) (match k_hd p with Some _ => true | None => false end) (k_cc p mod 16)
    (match k_hd p with
     | Some (f, _, _) => if t_pcr t then Some (clock33 (f_dts f + 4590)) else None
     | None => None
     end)
    ((match k_hd p with Some h => pes_bytes t h | None => [] end) ++ k_data p).

Lemma ff_repeat n : forallb (Z.eqb 255) (repeat 255 n) = true.
Proof. induction n; [reflexivity|exact IHn]. Qed.

Lemma pcr_value x :
  byte (x / 2 ^ 25) * 2 ^ 25 + byte (x / 2 ^ 17) * 2 ^ 17 + byte (x / 2 ^ 9) * 2 ^ 9 +
  byte (x / 2) * 2 + (x mod 2 * 128 + 126) / 128 = clock33 x.
Proof.
  unfold byte, clock33.
  replace ((x mod 2 * 128 + 126) / 128) with (x mod 2)
    by (rewrite Z.div_add_l by lia; change (126 / 128) with 0; lia).
  change (2 ^ 25) with 33554432. change (2 ^ 17) with 131072. change (2 ^ 9) with 512.
  change (2 ^ 33) with 8589934592.
  Z.div_mod_to_equations. lia.
Qed.

Lemma parse_af_af t h n l :
  af t h n = l -> (n <= 184)%nat ->
  match l with
  | [] => n = O /\ has_af t h n = false
  | x :: r =>
      has_af t h n = true /\ x = Z.of_nat (length r) /\ 
      parse_af r = Some (match h with
                         | Some (f, _, _) => if t_pcr t then Some (clock33 (f_dts f + 4590)) else None
                         | None => None
                         end)
  end.
Proof.
  intros <- Hn. unfold af, has_af.
  assert (S0 : forall x, match x with O => [] | S y => 0 :: repeat 255 y end = [] \/
                         exists y, x = S y) by (intros [|y]; [left; reflexivity|right; eauto]).
  destruct h as [[[f al] v]|].
  - destruct (t_pcr t).
    + split; [destruct n; reflexivity|]. split.
      { cbn [length pcr_bytes app]. rewrite repeat_length. lia. }
      unfold pcr_bytes. cbn [app parse_af].
      rewrite ff_repeat.
      assert (E : (((f_dts f + 4590) mod 2 * 128 + 126) mod 128 =? 126) = true).
      { apply Z.eqb_eq. rewrite Z.add_comm, Z.mod_add by lia. reflexivity. }
      rewrite E. cbn [andb Z.eqb]. f_equal. f_equal. apply pcr_value.
    + destruct n as [|[|n]]; [split; reflexivity| |].
      * cbn [length]. split; [reflexivity|]. split; reflexivity.
      * split; [reflexivity|]. split; [cbn [length]; rewrite repeat_length; lia|].
        cbn [parse_af]. rewrite ff_repeat. reflexivity.
  - destruct n as [|[|n]]; [split; reflexivity| |].
    * cbn [length]. split; [reflexivity|]. split; reflexivity.
    * split; [reflexivity|]. split; [cbn [length]; rewrite repeat_length; lia|].
      cbn [parse_af]. rewrite ff_repeat. reflexivity.
Qed.

Lemma parse_wire t p :
  good_strm t -> length (wire t p) = 188%nat -> parse_ts (wire t p) = Some (pkt_tsp t p).
Proof.
  intros HG HL. pose proof HL as HL'. rewrite len_wire in HL'.
  pose proof (parse_af_af t (k_hd p) (k_stuff p) _ eq_refl ltac:(lia)) as HA.
  pose proof (len_af t (k_hd p) (k_stuff p)) as HLA.
  destruct HG as [HP _]. pose proof (cc16 (k_cc p)) as C.
  assert (HP1 : 0 <= t_pid t / 256 < 32) by (split; [apply Z.div_pos; lia | apply Z.div_lt_upper_bound; lia]).
  unfold wire in *. cbn [app parse_ts] in *. rewrite HL. cbn [Nat.eqb andb].
  set (s64 := match k_hd p with Some _ => 64 | None => 0 end) in *.
  assert (HS : s64 = 0 \/ s64 = 64) by (unfold s64; destruct (k_hd p); auto).
  assert (HB : (t_pid t / 256 + s64) mod 64 = t_pid t / 256)
    by (destruct HS as [-> | ->]; [rewrite Z.add_0_r; apply Z.mod_small; lia|];
        rewrite <- (Z.mul_1_l 64) at 1; rewrite Z.mod_add by lia; apply Z.mod_small; lia).
  rewrite HB.
  assert (E1 : (t_pid t / 256 + s64 <? 128) = true) by (destruct HS; lia). rewrite E1.
  assert (E2 : (t_pid t / 256 <? 32) = true) by lia. rewrite E2. cbn [andb].
  assert (HPid : t_pid t / 256 * 256 + t_pid t mod 256 = t_pid t) by (pose proof (Z.div_mod (t_pid t) 256); lia).
  rewrite HPid.
  assert (HSt : (t_pid t / 256 + s64) / 64 =? 1 = match k_hd p with Some _ => true | None => false end).
  { unfold s64. destruct (k_hd p).
    - rewrite <- (Z.mul_1_l 64) at 1. rewrite Z.div_add by lia. rewrite Z.div_small by lia. reflexivity.
    - rewrite Z.add_0_r, Z.div_small by lia. reflexivity. }
  rewrite HSt.
  destruct (af t (k_hd p) (k_stuff p)) as [|x r].
  - destruct HA as [Hn Hh]. rewrite Hh.
    assert (D1 : (16 + k_cc p mod 16 + 0) / 16 = 1) by (revert C; clear; generalize (k_cc p mod 16); intros z C; Z.div_mod_to_equations; lia).
    rewrite D1.
    cbn [Z.eqb Pos.eqb]. unfold pkt_tsp. f_equal. f_equal.
    + revert C. clear. generalize (k_cc p mod 16). intros z C. Z.div_mod_to_equations; lia.
    + destruct (k_hd p) as [[[f al] v]|]; [|reflexivity].
      unfold has_af in Hh. rewrite Hn in Hh. rewrite Hh. reflexivity.
  - destruct HA as (Hh & Hx & Hr). rewrite Hh.
    assert (D3 : (16 + k_cc p mod 16 + 32) / 16 = 3) by (revert C; clear; generalize (k_cc p mod 16); intros z C; Z.div_mod_to_equations; lia).
    rewrite D3.
    cbn [Z.eqb Pos.eqb app]. cbn [length] in HLA.
    assert (Hlen : (length r <= 183)%nat).
    { unfold hlen, hsize in HL'. destruct (k_hd p); destruct (t_pcr t), (is_video t); lia. }
    assert (E3 : (0 <=? x) && (x <=? 183) = true) by lia. rewrite E3.
    rewrite Hx, Nat2Z.id.
    rewrite firstn_app_exact, skipn_app_exact.
    rewrite Hr. unfold pkt_tsp. f_equal. f_equal.
    revert C. clear. generalize (k_cc p mod 16). intros z C. Z.div_mod_to_equations; lia.
Qed.

Lemma time_value fb x :
  0 <= fb < 16 -> parse_time fb (pts_bytes fb x) = Some (clock33 x).
Proof.
  intros Hf. unfold pts_bytes, parse_time, byte, clock33.
  change (2 ^ 15) with 32768. change (2 ^ 30) with 1073741824. change (2 ^ 33) with 8589934592.
  set (a := fb * 16 + x / 1073741824 mod 8 * 2 + 1).
  set (v1 := x / 32768 mod 32768 * 2 + 1). set (v2 := x mod 32768 * 2 + 1).
  assert (A1 : a / 16 = fb) by (unfold a; Z.div_mod_to_equations; lia).
  assert (A2 : a mod 2 = 1) by (unfold a; Z.div_mod_to_equations; lia).
  assert (A3 : a / 2 mod 8 = x / 1073741824 mod 8).
  { unfold a. replace (fb * 16 + x / 1073741824 mod 8 * 2 + 1) with ((fb * 8 + x / 1073741824 mod 8) * 2 + 1) by lia.
    rewrite Z.div_add_l by lia. change (1 / 2) with 0. rewrite Z.add_0_r, Z.add_comm, Z.mod_add by lia.
    apply Z.mod_mod. lia. }
  assert (B1 : v1 mod 256 mod 2 = 1) by (unfold v1; Z.div_mod_to_equations; lia).
  assert (B2 : v2 mod 256 mod 2 = 1) by (unfold v2; Z.div_mod_to_equations; lia).
  rewrite A1, A2, B1, B2, A3, !Z.eqb_refl. cbn [andb].
  replace (v1 / 256 * 256 + v1 mod 256) with v1 by (pose proof (Z.div_mod v1 256); lia).
  replace (v2 / 256 * 256 + v2 mod 256) with v2 by (pose proof (Z.div_mod v2 256); lia).
  replace (v1 / 2) with (x / 32768 mod 32768) by (unfold v1; rewrite Z.div_add_l by lia; change (1 / 2) with 0; lia).
  replace (v2 / 2) with (x mod 32768) by (unfold v2; rewrite Z.div_add_l by lia; change (1 / 2) with 0; lia).
  f_equal. clear. Z.div_mod_to_equations. lia.
Qed.

Definition hd_pes (t : strm) (h : hd) (d : list Z) : pes :=
  let '(f, al, v) := h in
  Pes (t_sid t) v al (clock33 (f_pts f + 9090))
    (if is_video t then Some (clock33 (f_dts f + 9090)) else None) d.

Lemma parse_pes_bytes t f al v d :
  good_strm t -> 0 <= v < 65536 ->
  parse_pes (pes_bytes t (f, al, v) ++ d) = Some (hd_pes t (f, al, v) d).
Proof.
  intros [_ HS] Hv. unfold pes_bytes, hd_pes. rewrite <- !app_assoc. cbn [app parse_pes].
  rewrite (byte_id (t_sid t)) by exact HS. rewrite byte16 by exact Hv.
  assert (L : forall fb x, length (pts_bytes fb x) = 5%nat) by reflexivity.
  assert (F : forall (A : Type) n (a b : list A), length a = n -> firstn n (a ++ b) = a)
    by (intros A n a b <-; apply firstn_app_exact).
  assert (K : forall (A : Type) n (a b : list A), length a = n -> skipn n (a ++ b) = b)
    by (intros A n a b <-; apply skipn_app_exact).
  destruct al, (is_video t); cbn [Z.eqb Pos.eqb andb app];
    rewrite ?(F Z 5%nat _ _ (L _ _)), ?(K Z 5%nat _ _ (L _ _)), ?(F Z 5%nat _ _ (L _ _));
    rewrite ?time_value by lia; try reflexivity.
Qed.
