From Coq Require Import ZArith List Bool Lia ZifyBool.
From Verif Require Import Lists Bytes Fmp4Model Fmp4Spec Fmp4Proofs Fmp4Proofs2 Fmp4Proofs3 Fmp4Proofs4 Fmp4Proofs5.
From Verif Require Import CencModel CencSpec CencProofs CencProofs2 CencProofs3.
Import ListNotations.
Open Scope Z_scope.

(* ------------------------------------------------------------------ *)
(* Entries are read back                                                *)

Lemma skipn_all_zlen {A} (a l : list A) n : length a = n -> skipn n (a ++ l) = l.
Proof. intros <-. rewrite skipn_app, Nat.sub_diag, skipn_all. reflexivity. Qed.

Lemma unbe_be2 z : 0 <= z < 65536 -> unbe (be 2 z) = z.
Proof. intro H. apply unbe_be_small. exact H. Qed.

Section entries.
Variables (cd : codec) (nl : Z).

Definition fit (n : list Z) : Prop :=
  0 <= fst (protect cd nl n) < 65536 /\ 0 <= snd (protect cd nl n) < 2 ^ 32.

Lemma subsamples_back ns r : Forall fit ns ->
  subsamples (length ns) (subs_bytes cd nl ns ++ r) = Some (map (protect cd nl) ns, r).
Proof.
  induction 1 as [|n ns (F1 & F2) F IH]; [reflexivity|].
  unfold subs_bytes in *. cbn [map concat length subsamples]. rewrite <- app_assoc.
  assert (Zs : zlen (sub_bytes cd nl n) = 6) by (unfold sub_bytes; rewrite zlen_app, !zlen_be; reflexivity).
  rewrite zlen_app, Zs. pose proof (zlen_nonneg (concat (map (sub_bytes cd nl) ns) ++ r)).
  destruct (Z.leb_spec 6 (6 + zlen (concat (map (sub_bytes cd nl) ns) ++ r))) as [_|C]; [|lia].
  rewrite (skipn_all_zlen (sub_bytes cd nl n)) by (unfold zlen in Zs; lia). rewrite IH.
  do 3 f_equal. unfold sub_bytes. rewrite <- !app_assoc.
  rewrite (slice0 2) by apply zlen_be. rewrite (slice_skip _ _ 2) by (try apply zlen_be; lia).
  rewrite (slice0 4) by apply zlen_be. rewrite unbe_be2, unbe_be4 by auto. now destruct (protect cd nl n).
Qed.

Definition entry_for (iv : list Z) (ns : list (list Z)) : entry := (iv, Some (map (protect cd nl) ns)).

Lemma zlen_entry_bytes iv ns : length iv = 8%nat -> zlen (entry_bytes cd nl iv ns) = 10 + 6 * zlen ns.
Proof.
  intro L. unfold entry_bytes. rewrite !zlen_app, zlen_be, zlen_subs_bytes. unfold zlen at 1. rewrite L. lia.
Qed.

Lemma entry_back iv ns r : length iv = 8%nat -> Forall fit ns -> zlen ns < 65536 ->
  read_entry true (entry_bytes cd nl iv ns ++ r) = Some (entry_for iv ns, r).
Proof.
  intros L F Z0. pose proof (zlen_nonneg ns). pose proof (zlen_nonneg r). unfold read_entry.
  rewrite zlen_app, zlen_entry_bytes by auto.
  destruct (Z.leb_spec 8 (10 + 6 * zlen ns + zlen r)) as [_|C]; [|lia].
  destruct (Z.leb_spec 10 (10 + 6 * zlen ns + zlen r)) as [_|C]; [|lia].
  assert (Zi : zlen iv = 8) by (unfold zlen; rewrite L; reflexivity).
  unfold entry_bytes. rewrite <- !app_assoc.
  rewrite (slice_skip iv 8 8) by (auto; lia). rewrite (slice0 2) by apply zlen_be. rewrite unbe_be2 by lia.
  rewrite (slice0 8) by auto.
  replace (skipn 10 (iv ++ be 2 (zlen ns) ++ subs_bytes cd nl ns ++ r)) with (subs_bytes cd nl ns ++ r).
  2:{ rewrite app_assoc. symmetry. apply skipn_all_zlen. rewrite app_length, be_length. lia. }
  replace (Z.to_nat (zlen ns)) with (length ns) by (unfold zlen; lia). rewrite subsamples_back by auto. reflexivity.
Qed.

Fixpoint ents_of (q : Z) (nss : list (list (list Z))) : list entry :=
  match nss with [] => [] | ns :: nss => entry_for (be 8 q) ns :: ents_of (q + 1) nss end.

Definition fits_all (nss : list (list (list Z))) : Prop := Forall (fun ns => Forall fit ns /\ zlen ns < 65536) nss.

Lemma entries_back nss : fits_all nss -> forall q,
  read_entries true (length nss) (auxs cd nl q nss) = Some (ents_of q nss).
Proof.
  induction 1 as [|ns nss (F & Zn) FF IH]; intro q; [reflexivity|].
  cbn [length read_entries auxs ents_of]. rewrite entry_back by (auto using be_length). now rewrite IH.
Qed.

Lemma cut_back nss : fits_all nss -> forall q front back,
  cut_entries (front ++ auxs cd nl q nss ++ back) (zlen front) (map (fun ns => 10 + 6 * zlen ns) nss) = Some (ents_of q nss).
Proof.
  induction 1 as [|ns nss (F & Zn) FF IH]; intros q front back; [reflexivity|].
  cbn [map cut_entries auxs ents_of]. rewrite <- app_assoc.
  pose proof (zlen_entry_bytes (be 8 q) ns (be_length 8 q)) as Ze. pose proof (zlen_nonneg ns).
  rewrite (slice_skip front (zlen front) (zlen front)) by (auto; lia). rewrite Z.sub_diag, slice0 by auto.
  destruct (Z.ltb_spec 8 (10 + 6 * zlen ns)) as [_|C]; [|lia].
  rewrite <- (app_nil_r (entry_bytes cd nl (be 8 q) ns)) at 1. rewrite entry_back by (auto using be_length).
  specialize (IH (q + 1) (front ++ entry_bytes cd nl (be 8 q) ns) back). rewrite zlen_app, Ze, <- app_assoc in IH.
  now rewrite IH.
Qed.

Lemma zlen_auxs nss : forall q, zlen (auxs cd nl q nss) = fold_right (fun ns n => 10 + 6 * zlen ns + n) 0 nss.
Proof.
  induction nss as [|ns nss IH]; intro q; [reflexivity|]. cbn [auxs fold_right].
  rewrite zlen_app, IH, zlen_entry_bytes by apply be_length. reflexivity.
Qed.

End entries.

(* ------------------------------------------------------------------ *)
(* Decryption                                                           *)

Section video.
Variables (E : list Z -> list Z) (cd : codec) (nl : Z).
Hypothesis Hnl : 1 <= nl <= 4.

Lemma zlen_enc_nal iv p n : zlen (enc_nal E cd nl iv p n) = nl + zlen n.
Proof.
  unfold enc_nal. rewrite zlen_app, zlen_be. destruct n as [|b r].
  - change (zlen (@nil Z)) with 0. lia.
  - rewrite !zlen_cons. destruct (slice_nal cd (b :: r)); rewrite ?zlen_ctr; lia.
Qed.

Lemma zlen_enc_nals iv ns : forall p, zlen (enc_nals E cd nl iv p ns) = zlen (flatn nl ns).
Proof.
  induction ns as [|n ns IH]; intro p; [reflexivity|]. cbn [enc_nals]. rewrite flatn_cons.
  rewrite !zlen_app, IH, zlen_enc_nal, zlen_nal_bytes by auto. reflexivity.
Qed.

Lemma decrypt_back iv ns : Forall (fun n => 1 <= zlen n) ns -> forall p,
  decrypt_subs E iv p (map (protect cd nl) ns) (enc_nals E cd nl iv p ns) = Some (flatn nl ns).
Proof.
  induction 1 as [|n ns Zn F IH]; intro p; [reflexivity|].
  cbn [map decrypt_subs enc_nals]. rewrite flatn_cons.
  assert (P : fst (protect cd nl n) + snd (protect cd nl n) = nl + zlen n /\ snd (protect cd nl n) = adv cd n).
  { unfold protect, adv. destruct (slice_nal cd n); cbn [fst snd]; lia. }
  destruct P as (P1 & P2). destruct (protect cd nl n) as [c e] eqn:Ep. cbn [fst snd] in P1, P2. rewrite P1.
  rewrite zlen_app, zlen_enc_nal. pose proof (zlen_nonneg (enc_nals E cd nl iv (p + adv cd n) ns)).
  destruct (Z.leb_spec (nl + zlen n) (nl + zlen n + zlen (enc_nals E cd nl iv (p + adv cd n) ns))) as [_|C]; [|lia].
  rewrite skipn_zlen by apply zlen_enc_nal. rewrite P2, IH. f_equal. rewrite app_assoc. f_equal.
  unfold protect in Ep. unfold nal_bytes, enc_nal, adv in *. destruct n as [|b r]; [change (zlen (@nil Z)) with 0 in Zn; lia|].
  assert (Zb : zlen (be (Z.to_nat nl) (zlen (b :: r))) = nl) by (rewrite zlen_be; lia).
  destruct (slice_nal cd (b :: r)).
  - injection Ep as <- <-. set (L := be (Z.to_nat nl) (zlen (b :: r))) in *.
    change (L ++ b :: ctr E iv p r) with (L ++ [b] ++ ctr E iv p r). rewrite (app_assoc L [b]). rewrite <- !app_assoc.
    set (w := L ++ [b] ++ ctr E iv p r ++ enc_nals E cd nl iv (p + (zlen (b :: r) - 1)) ns).
    assert (W : w = (L ++ [b]) ++ ctr E iv p r ++ enc_nals E cd nl iv (p + (zlen (b :: r) - 1)) ns) by (unfold w; now rewrite <- !app_assoc).
    assert (Zl : zlen (L ++ [b]) = nl + 1) by (rewrite zlen_app, Zb; reflexivity).
    rewrite W. rewrite (slice0 (nl + 1)) by auto. rewrite (slice_skip _ _ (nl + 1)) by (auto; lia). rewrite Z.sub_diag.
    rewrite slice0 by (rewrite zlen_ctr, zlen_cons; lia). rewrite ctr_ctr, <- app_assoc. reflexivity.
  - injection Ep as <- <-. rewrite slice0 by (rewrite zlen_app, Zb; reflexivity).
    change (slice ?a 0 ?b) with (@nil Z). cbn [ctr]. apply app_nil_r.
Qed.

Lemma decrypt_all_back k nss : Forall (fun ns => Forall (fun n => 1 <= zlen n) ns) nss -> forall q d fs,
  length fs = length nss ->
  decrypt_all E (ents_of cd nl q nss) (shows k d fs ((fix go q nss := match nss with [] => [] | ns :: nss => enc_nals E cd nl (be 8 q) 0 ns :: go (q + 1) nss end) q nss)) =
  Some (shows k d fs (map (flatn nl) nss)).
Proof.
  induction 1 as [|ns nss F FF IH]; intros q d [|f fs] Hl; try discriminate; [reflexivity|].
  injection Hl as Hl. cbn [ents_of shows map].
  specialize (IH (q + 1) (d + f_dur f) fs Hl).
  destruct k; cbn [decrypt_all w_data w_pts w_dur w_sync]; unfold decrypt, entry_for; cbn [fst snd];
    rewrite decrypt_back by auto; rewrite IH; reflexivity.
Qed.

Fixpoint enc_list (q : Z) (nss : list (list (list Z))) : list (list Z) :=
  match nss with [] => [] | ns :: nss => enc_nals E cd nl (be 8 q) 0 ns :: enc_list (q + 1) nss end.

Lemma decrypt_list k nss q d fs : Forall (fun ns => Forall (fun n => 1 <= zlen n) ns) nss -> 
  length fs = length nss ->
  decrypt_all E (ents_of cd nl q nss) (shows k d fs (enc_list q nss)) = Some (shows k d fs (map (flatn nl) nss)).
Proof. intros F L. exact (decrypt_all_back k nss F q d fs L). Qed.

Lemma encs_concat nss : forall q, encs E cd nl q nss = concat (enc_list q nss).
Proof. induction nss as [|ns nss IH]; intro q; [reflexivity|]. cbn [encs enc_list concat]. now rewrite IH. Qed.

Lemma enc_list_zlen nss : forall q, map zlen (enc_list q nss) = map zlen (map (flatn nl) nss).
Proof. induction nss as [|ns nss IH]; intro q; [reflexivity|]. cbn [enc_list map]. now rewrite IH, zlen_enc_nals. Qed.

End video.

(* ------------------------------------------------------------------ *)
(* The boxes                                                            *)

Definition saiz_body (def count : Z) (l : list Z) : list Z :=
  be 4 0 ++ [def] ++ be 4 count ++ (if def =? 0 then l else []).
Definition saio_body (off : Z) : list Z := be 4 0 ++ be 4 1 ++ be 4 off.
Definition senc_body (flags count : Z) (aux : list Z) : list Z := be 4 flags ++ be 4 count ++ aux.

Lemma saiz_bx def count l : saiz def count l = bx SAIZ (saiz_body def count l).
Proof.
  unfold saiz, bx, saiz_body. rewrite !zlen_app, !zlen_be. change (zlen [def]) with 1. cbv zeta.
  do 2 f_equal. lia.
Qed.
Lemma saio_bx off : saio off = bx SAIO (saio_body off).
Proof. unfold saio, bx, saio_body. rewrite !zlen_app, !zlen_be. reflexivity. Qed.
Lemma senc_bx f c a : senc f c a = bx SENC (senc_body f c a).
Proof. unfold senc, bx, senc_body. rewrite !zlen_app, !zlen_be. do 2 f_equal. lia. Qed.

Definition cenc_boxes (def count0 : Z) (szs : list Z) (off flags count : Z) (aux : list Z) :=
  [(SAIZ, saiz_body def count0 szs); (SAIO, saio_body off); (SENC, senc_body flags count aux)].

Lemma cenc_boxes_ok def count0 szs off flags count aux :
  zlen szs < 2 ^ 30 -> zlen aux < 2 ^ 30 ->
  Forall ok_box (cenc_boxes def count0 szs off flags count aux) /\
  Forall foreign (cenc_boxes def count0 szs off flags count aux).
Proof.
  intros A B. pose proof (zlen_nonneg szs). split.
  - constructor; [|constructor; [|constructor; [|constructor]]]; (split; [reflexivity|]); cbn [snd].
    + unfold saiz_body. rewrite !zlen_app, !zlen_be. change (zlen [def]) with 1.
      destruct (def =? 0); [|change (zlen (@nil Z)) with 0]; lia.
    + unfold saio_body. rewrite !zlen_app, !zlen_be. lia.
    + unfold senc_body. rewrite !zlen_app, !zlen_be. lia.
  - constructor; [|constructor; [|constructor; [|constructor]]]; unfold foreign; cbn [fst]; repeat split; discriminate.
Qed.

Lemma by_senc_ok file P tb flags count aux xb :
  (exists bs, boxes tb = Some bs /\ map b_body (named SENC bs) = pick SENC xb) ->
  pick SENC xb = [senc_body flags count aux] -> 0 <= flags < 2 ^ 32 -> 0 <= count < 2 ^ 32 ->
  by_senc file P tb = read_entries (Z.testbit flags 1) (Z.to_nat count) aux.
Proof.
  intros (bs & B & N) Pk Hf Hc. unfold by_senc. rewrite B. rewrite Pk in N.
  destruct (named SENC bs) as [|x [|? ?]]; try discriminate. injection N as ->.
  unfold senc_body. pose proof (zlen_nonneg aux). rewrite !zlen_app, !zlen_be.
  destruct (Z.leb_spec 8 (Z.of_nat 4 + (Z.of_nat 4 + zlen aux))) as [_|C]; [|lia].
  rewrite (slice0 4) by apply zlen_be. rewrite (slice_skip _ _ 4) by (try apply zlen_be; lia). rewrite (slice0 4) by apply zlen_be.
  rewrite !unbe_be4 by lia. reflexivity.
Qed.

Lemma by_saiz_ok file P tb def szs off xb :
  (forall n, n <> TFHD -> n <> TFDT -> n <> TRUN -> exists bs, boxes tb = Some bs /\ map b_body (named n bs) = pick n xb) ->
  pick SAIZ xb = [saiz_body def (zlen szs) szs] -> pick SAIO xb = [saio_body off] ->
  0 <= def < 256 -> zlen szs < 2 ^ 32 -> 0 <= off < 2 ^ 32 ->
  (def <> 0 -> szs = repeat def (length szs)) ->
  by_saiz file P tb = cut_entries file (P + off) szs.
Proof.
  intros N Pz Po Hd Hs Ho Heq. unfold by_saiz. pose proof (zlen_nonneg szs) as Z0.
  destruct (N SAIZ) as (bs & B & Nz); try discriminate. destruct (N SAIO) as (bs' & B' & No); try discriminate.
  rewrite B in B'. injection B' as <-. rewrite B. rewrite Pz in Nz. rewrite Po in No.
  destruct (named SAIZ bs) as [|x [|? ?]]; try discriminate. injection Nz as ->.
  destruct (named SAIO bs) as [|y [|? ?]]; try discriminate. injection No as ->. cbv zeta.
  set (l := if def =? 0 then szs else []).
  unfold saiz_body, saio_body. fold l.
  rewrite !(slice0 4) by apply zlen_be.
  assert (D1 : slice 4 1 (be 4 0 ++ [def] ++ be 4 (zlen szs) ++ l) = [def]).
  { rewrite (slice_skip _ _ 4) by (try apply zlen_be; lia). apply slice0. reflexivity. }
  assert (D2 : slice 5 4 (be 4 0 ++ [def] ++ be 4 (zlen szs) ++ l) = be 4 (zlen szs)).
  { rewrite (slice_skip _ _ 4) by (try apply zlen_be; lia). rewrite (slice_skip _ _ 1) by (try reflexivity; lia). apply slice0. apply zlen_be. }
  assert (D3 : slice 4 4 (be 4 0 ++ be 4 1 ++ be 4 off) = be 4 1).
  { rewrite (slice_skip _ _ 4) by (try apply zlen_be; lia). apply slice0. apply zlen_be. }
  assert (D4 : slice 8 4 (be 4 0 ++ be 4 1 ++ be 4 off) = be 4 off).
  { do 2 rewrite (slice_skip _ _ 4) by (try apply zlen_be; lia). rewrite <- (app_nil_r (be 4 off)) at 1. apply slice0. apply zlen_be. }
  rewrite D1, D2, D3, D4, !unbe_be4 by lia. rewrite !zlen_app, !zlen_be. change (zlen [def]) with 1.
  replace (unbe [def]) with def by (unfold unbe; cbn; lia).
  change ((0 =? 0) && (0 =? 0) && (1 =? 1) && (Z.of_nat 4 + (Z.of_nat 4 + Z.of_nat 4) =? 12)) with true. cbv iota.
  unfold l. destruct (Z.eqb_spec def 0) as [Ed|Ed].
  - destruct (Z.eqb_spec (Z.of_nat 4 + (1 + (Z.of_nat 4 + zlen szs))) (9 + Z.of_nat (Z.to_nat (zlen szs)))) as [_|C]; [|lia].
    reflexivity.
  - f_equal. rewrite (Heq Ed) at 2. f_equal. unfold zlen. lia.
Qed.

Lemma default_size_repeat szs : default_size szs <> 0 -> szs = repeat (default_size szs) (length szs).
Proof.
  unfold default_size. destruct szs as [|z l]; [congruence|]. destruct (forallb (fun y => y =? z) l) eqn:Ef; [|congruence].
  intros _. cbn [length repeat]. f_equal. rewrite forallb_forall in Ef. clear - Ef.
  induction l as [|y l IH]; [reflexivity|]. cbn [length repeat].
  assert (Hy := Ef y (or_introl eq_refl)). apply Z.eqb_eq in Hy. subst y. f_equal. apply IH. intros x I. apply Ef. now right.
Qed.
