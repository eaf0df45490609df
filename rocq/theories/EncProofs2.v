(* The bytes of the RTMP encoder are bytes that a sender may send. *)

From Coq Require Import List ZArith Lia Bool Arith.
From Coq Require Import ZifyBool ZifyNat.
From Verif Require Import Lists Bytes RtmpModel RtmpSpec RtmpProofs RtmpProofs4 EncModel EncSpec EncProofs.
Import ListNotations.
Open Scope Z_scope.

Lemma n_acts_app n a b : n_acts n (a ++ b) = n_acts (n_acts n a) b.
Proof. revert n; induction a as [|x a IH]; intros n; [reflexivity|apply IH]. Qed.
Lemma wire_app r n a b : wire r n (a ++ b) = wire r n a ++ wire r (n_acts n a) b.
Proof. revert n; induction a as [|x a IH]; intros n; [reflexivity|]. cbn. rewrite IH, app_assoc. reflexivity. Qed.
Lemma acts_ok_app p q r n a b : acts_ok p q r n (a ++ b) <-> acts_ok p q r n a /\ acts_ok p q r (n_acts n a) b.
Proof. revert n; induction a as [|x a IH]; intros n; cbn [app acts_ok n_acts]; [tauto|]. rewrite IH. tauto. Qed.

Section Emit.
Variables (ms mm : Z).

(* from n, the bytes o are those of the complete messages l, and lead to n' *)
Definition emits (n : sender) (o : list Z) (l : list smsg) (n' : sender) : Prop :=
  exists acts, acts_ok 4 ms mm n acts /\ o = wire false n acts /\ n' = n_acts n acts /\ n_done n' = n_done n ++ l.

Lemma emits_nil n : emits n [] [] n.
Proof. exists []. cbn. rewrite app_nil_r. auto. Qed.

Lemma emits_app n o1 l1 n1 o2 l2 n2 : emits n o1 l1 n1 -> emits n1 o2 l2 n2 -> emits n (o1 ++ o2) (l1 ++ l2) n2.
Proof.
  intros (a & A1 & -> & -> & A4) (b & B1 & -> & -> & B4). exists (a ++ b).
  split; [apply acts_ok_app; auto|]. split; [rewrite wire_app; reflexivity|]. split; [rewrite n_acts_app; reflexivity|].
  rewrite B4, A4, app_assoc. reflexivity.
Qed.

(* what a complete message leaves behind *)
Definition after (n : sender) (m : smsg) (d f : Z) (e : bool) (n' : sender) : Prop :=
  n_chunk n' = (if x_type m =? 1 then unbe (x_body m) else n_chunk n) /\
  (forall c, n_st n' c = if c =? x_csid m then PSt m d f e [] else n_st n c).

Lemma nexts m d f e : 2 <= x_csid m < ms -> x_csid m <= 63 -> forall k n left,
  0 < n_chunk n -> n_st n (x_csid m) = PSt m d f e left -> 0 < len left -> k = S (more (len left) (n_chunk n)) ->
  let l := repeat (Next 1 (x_csid m)) k in
  acts_ok 4 ms mm n l /\
  wire false n l = (192 + x_csid m) :: weave (more (len left) (n_chunk n)) (n_chunk n) (192 + x_csid m) left /\
  n_done (n_acts n l) = n_done n ++ [m] /\ after n m d f e (n_acts n l).
Proof.
  intros HM HS. induction k as [|k IH]; intros n left HC ST HL HK; [discriminate|].
  injection HK as HK. cbv zeta. cbn [repeat acts_ok wire n_acts].
  set (n1 := n_act n (Next 1 (x_csid m))).
  assert (OK : act_ok 4 ms mm n (Next 1 (x_csid m))).
  { cbn. split; [exact HM|]. split; [left; split; [reflexivity|lia]|]. rewrite ST. cbn. intros ->. change (len (@nil Z)) with 0 in HL. lia. }
  assert (W : w_act false n (Next 1 (x_csid m)) = (192 + x_csid m) :: take (n_chunk n) left).
  { cbn [w_act]. rewrite ST. cbn [p_ext p_left]. rewrite andb_false_r. reflexivity. }
  rewrite W.
  assert (N1 : n1 = n_sent n (PSt m d f e (drop (n_chunk n) left))).
  { unfold n1. cbn [n_act]. rewrite ST. reflexivity. }
  destruct (Z.le_gt_cases (len left) (n_chunk n)) as [HLE|HGT].
  - rewrite more_0 in HK by lia. subst k. cbn [repeat acts_ok wire n_acts]. rewrite weave_one by lia.
    rewrite take_all by lia. rewrite app_nil_r. split; [auto|]. split; [reflexivity|].
    rewrite N1. rewrite drop_all by lia. cbn [n_sent p_left p_msg n_done]. split; [reflexivity|].
    split; [reflexivity|]. intros c. reflexivity.
  - rewrite more_S in HK by lia. rewrite weave_more by lia.
    assert (EL : len (drop (n_chunk n) left) = len left - n_chunk n) by (apply len_drop; lia).
    assert (N1' : n1 = Sender (n_chunk n) (upd (n_st n) (x_csid m) (PSt m d f e (drop (n_chunk n) left))) (n_done n)).
    { rewrite N1. unfold n_sent. cbn [p_left p_msg]. destruct (drop (n_chunk n) left) as [|z r] eqn:E; [|reflexivity].
      change (len (@nil Z)) with 0 in EL. lia. }
    assert (C1 : n_chunk n1 = n_chunk n) by (rewrite N1'; reflexivity).
    destruct (IH n1 (drop (n_chunk n) left)) as (A1 & A2 & A3 & A4).
    + rewrite C1; exact HC.
    + rewrite N1'. cbn. unfold upd. rewrite Z.eqb_refl. reflexivity.
    + lia.
    + rewrite C1, EL. exact HK.
    + rewrite C1, EL in A2. split; [auto|]. split; [rewrite A2; reflexivity|].
      split; [rewrite A3, N1'; reflexivity|]. destruct A4 as (A4 & A5).
      split; [rewrite A4, C1; reflexivity|]. intros c. rewrite A5. rewrite N1'. cbn [n_st]. unfold upd.
      destruct (c =? x_csid m); reflexivity.
Qed.

Lemma msg_sent n m fmt f k : msg_ok 4 ms mm m -> x_csid m <= 63 -> 0 <= fmt <= 1 -> 0 < n_chunk n -> 0 < len (x_body m) ->
  p_left (n_st n (x_csid m)) = [] -> (fmt = 1 -> x_msid m = x_msid (p_msg (n_st n (x_csid m)))) ->
  f = w_field (n_st n (x_csid m)) fmt m -> k = more (len (x_body m)) (n_chunk n) ->
  exists n', emits n ((fmt * 64 + x_csid m) :: w_mhdr fmt f m ++ (if f >=? no_ts then be 4 f else []) ++
                      weave k (n_chunk n) (192 + x_csid m) (x_body m)) [m] n' /\
    exists d, after n m d f (f >=? no_ts) n'.
Proof.
  intros MO CS HF HC HB PL MS -> ->.
  set (f := w_field (n_st n (x_csid m)) fmt m). set (e := f >=? no_ts). set (d := if fmt =? 0 then 0 else f).
  set (a := Start 1 fmt m). set (n1 := n_act n a).
  assert (OK : act_ok 4 ms mm n a).
  { cbn. split; [exact MO|]. split; [left; split; [reflexivity|]; destruct MO as (MO & _); lia|]. split; [lia|].
    split; [exact PL|]. split; [intros; apply MS; lia|]. split; intros; lia. }
  assert (HE : w_has_ext (n_st n (x_csid m)) fmt f = e) by (unfold w_has_ext; replace (fmt =? 3) with false by lia; reflexivity).
  assert (W : w_act false n a = (fmt * 64 + x_csid m) :: w_mhdr fmt f m ++ (if e then be 4 f else []) ++ take (n_chunk n) (x_body m)).
  { unfold a. cbn [w_act]. fold f. unfold w_ext. rewrite HE. replace (fmt <? 3) with true by lia.
    cbn [orb]. rewrite andb_true_r. reflexivity. }
  assert (N1 : n1 = n_sent n (PSt m d f e (drop (n_chunk n) (x_body m)))).
  { unfold n1, a. cbn [n_act]. fold f. rewrite HE. reflexivity. }
  destruct (Z.le_gt_cases (len (x_body m)) (n_chunk n)) as [HLE|HGT].
  - exists n1. rewrite weave_one by lia. split.
    + exists [a]. cbn [acts_ok wire n_acts]. rewrite W, take_all by lia. rewrite app_nil_r. split; [auto|]. split; [reflexivity|].
      split; [reflexivity|]. rewrite N1, drop_all by lia. reflexivity.
    + exists d. rewrite N1, drop_all by lia. split; [reflexivity|]. intros c. reflexivity.
  - assert (EL : len (drop (n_chunk n) (x_body m)) = len (x_body m) - n_chunk n) by (apply len_drop; lia).
    assert (N1' : n1 = Sender (n_chunk n) (upd (n_st n) (x_csid m) (PSt m d f e (drop (n_chunk n) (x_body m)))) (n_done n)).
    { rewrite N1. unfold n_sent. cbn [p_left p_msg]. destruct (drop (n_chunk n) (x_body m)) as [|z r] eqn:E; [|reflexivity].
      change (len (@nil Z)) with 0 in EL. lia. }
    assert (C1 : n_chunk n1 = n_chunk n) by (rewrite N1'; reflexivity).
    destruct (nexts m d f e (proj1 MO) CS (S (more (len (x_body m) - n_chunk n) (n_chunk n))) n1 (drop (n_chunk n) (x_body m))) as (A1 & A2 & A3 & A4).
    + lia.
    + rewrite N1'. cbn. unfold upd. rewrite Z.eqb_refl. reflexivity.
    + lia.
    + rewrite C1, EL. reflexivity.
    + rewrite C1, EL in A2. set (l := repeat _ _) in *. exists (n_acts n1 l). split.
      * exists (a :: l). cbn [acts_ok wire n_acts]. fold n1. split; [auto|]. split; [|split; [reflexivity|rewrite A3, N1'; reflexivity]].
        rewrite W, A2, weave_more by lia. cbn [app]. rewrite <- !app_assoc. reflexivity.
      * exists d. destruct A4 as (A4 & A5). split; [rewrite A4, C1; reflexivity|]. intros c. rewrite A5, N1'. cbn [n_st]. unfold upd.
        destruct (c =? x_csid m); reflexivity.
Qed.

(* ---- headers ---- *)

Lemma lor_byte b : (b = 64 \/ b = 192) -> forall cs, 0 <= cs < 64 -> Z.lor b cs = b + cs.
Proof.
  intros HB cs H.
  assert (A : forallb (fun i => (Z.lor 64 (Z.of_nat i) =? 64 + Z.of_nat i) && (Z.lor 192 (Z.of_nat i) =? 192 + Z.of_nat i)) (seq 0 64) = true) by reflexivity.
  rewrite forallb_forall in A. specialize (A (Z.to_nat cs) ltac:(apply in_seq; lia)). rewrite Z2Nat.id in A by lia.
  destruct HB as [-> | ->]; lia.
Qed.

Lemma hd_byte cs : 0 <= cs < 64 -> u8 (Z.lor 192 cs) = 192 + cs.
Proof. intros H. rewrite lor_byte by auto. unfold u8. apply Z.mod_small. lia. Qed.

Lemma header_basic fmt cs : 0 <= fmt <= 1 -> 0 <= cs < 64 -> u8 (Z.lor (Z.shiftl fmt 6) cs) = fmt * 64 + cs.
Proof.
  intros H HC. assert (fmt = 0 \/ fmt = 1) as [-> | ->] by lia.
  - change (Z.shiftl 0 6) with 0. rewrite Z.lor_0_l. unfold u8. apply Z.mod_small. lia.
  - change (Z.shiftl 1 6) with 64. rewrite lor_byte by auto. unfold u8. apply Z.mod_small. lia.
Qed.

Lemma header_eq fmt f m : 0 <= fmt <= 1 -> 0 <= x_csid m < 64 ->
  write_header (EHdr fmt (x_csid m) (Z.min f no_ts) (len (x_body m)) (x_type m) (x_msid m)) = (fmt * 64 + x_csid m) :: w_mhdr fmt f m.
Proof.
  intros H HC. unfold write_header, w_mhdr. cbn [h_fmt h_csid h_ts h_mlen h_type h_msid]. rewrite header_basic by assumption.
  assert (fmt = 0 \/ fmt = 1) as [-> | ->] by lia; cbn [Z.leb Z.eqb Z.compare Pos.compare Pos.compare_cont].
  - rewrite <- app_assoc. reflexivity.
  - rewrite !app_nil_r. reflexivity.
Qed.

(* a message that is written at time zero, or zero time after the last one *)
Lemma emit_small n m fmt : msg_ok 4 ms mm m -> x_csid m <= 63 -> 0 <= fmt <= 1 -> 0 < n_chunk n -> 0 < len (x_body m) ->
  p_left (n_st n (x_csid m)) = [] -> (fmt = 1 -> x_msid m = x_msid (p_msg (n_st n (x_csid m))) /\ x_ts m = x_ts (p_msg (n_st n (x_csid m)))) ->
  (fmt = 0 -> x_ts m = 0) ->
  exists n' d, emits n (write_header (EHdr fmt (x_csid m) 0 (len (x_body m)) (x_type m) (x_msid m)) ++
               weave (more (len (x_body m)) (n_chunk n)) (n_chunk n) (u8 (Z.lor 192 (x_csid m))) (x_body m)) [m] n' /\
    after n m d 0 false n'.
Proof.
  intros MO CS HF HC HB PL H1 H0. pose proof MO as (MO1 & _).
  assert (F : 0 = w_field (n_st n (x_csid m)) fmt m).
  { unfold w_field. destruct (fmt =? 0) eqn:E; [rewrite H0; lia|]. destruct H1 as (_ & ->); [lia|].
    replace (_ - _) with 0 by lia. reflexivity. }
  destruct (msg_sent n m fmt 0 (more (len (x_body m)) (n_chunk n)) MO CS HF HC HB PL ltac:(intros; apply H1; assumption) F eq_refl)
    as (n' & E & d & AF).
  exists n', d. split; [|exact AF].
  rewrite hd_byte by lia. change 0 with (Z.min 0 no_ts) at 1. rewrite header_eq by lia. exact E.
Qed.

End Emit.
