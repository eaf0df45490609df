(* Proofs about the MPEG-TS muxer, part 4: the buffer. *)

From Coq Require Import ZArith List Bool Lia ZifyBool.
From Verif Require Import Lists TsModel TsSpec MuxModel MuxSpec MuxProofs MuxProofs2 MuxProofs3.
Import ListNotations.
Open Scope Z_scope.

(* ---------- some frames become one PES packet ---------- *)

Definition packed (c : conf) (i : nat) (B : list (frame * list Z)) (last : bool) (ops : list op) : Prop :=
  exists f0 e0 B' B1 B2, B = (f0, e0) :: B' /\ B = B1 ++ B2 /\ B1 <> [] /\
    (c_align c = false -> length B1 = 1 \/ 26 <= length B2)%nat /\
    zlen (pdata B) <= buf_size /\ Forall pfull B /\
    ops = group i f0 [pdata B1] B2 last.

Definition single (i : nat) (B : list (frame * list Z)) (last : bool) (ops : list op) : Prop :=
  exists f W, B = [(f, concat W)] /\ W <> [] /\ Forall full W /\ ops = group i f W [] last.

Definition grp c i B last ops : Prop := packed c i B last ops \/ single i B last ops.

Inductive sents (c : conf) (i : nat) (last : bool) : list (frame * list Z) -> list op -> Prop :=
| s_nil : last = false -> sents c i last [] []
| s_one G ops : grp c i G last ops -> sents c i last G ops
| s_more G ops F ops2 : grp c i G false ops -> sents c i last F ops2 -> sents c i last (G ++ F) (ops ++ ops2).

(* What holds for every frame of a stream: the size of the header, that it can be
   announced, and that it is not too short for the queue. *)
Record piece_ok (c : conf) (t : strm) (h : Z) (p : frame * list Z) : Prop := {
  po_full : snd p <> [];
  po_head : f_header (fst p) = h;
  po_fits : fits c t (zlen (snd p));
  po_big : c_align c = false -> is_video t = false -> is_other t = false -> 8 <= zlen (snd p)
}.

Lemma ok_full c t h F : Forall (piece_ok c t h) F -> Forall pfull F.
Proof. intros H. eapply Forall_impl; [|exact H]. intros p Hp. exact (po_full _ _ _ _ Hp). Qed.

Lemma pdata_full F : F <> [] -> Forall pfull F -> pdata F <> [].
Proof.
  intros H HF. destruct HF as [|[f x] F Hx HF]; [congruence|]. unfold pdata. cbn [map concat snd] in *.
  destruct x; [congruence|discriminate].
Qed.

Lemma packed_on c i B last ops : packed c i B last ops -> all_on i ops.
Proof. intros (f0 & e0 & B' & B1 & B2 & _ & _ & _ & _ & _ & _ & ->). apply on_group. Qed.

Lemma grp_on c i B last ops : grp c i B last ops -> all_on i ops.
Proof. intros [H|(f & W & _ & _ & _ & ->)]; [exact (packed_on _ _ _ _ _ H)|apply on_group]. Qed.

Lemma sents_on c i last F ops : sents c i last F ops -> all_on i ops.
Proof.
  induction 1 as [|G ops H|G ops F ops2 H _ IH]; [constructor|exact (grp_on _ _ _ _ _ H)|].
  apply on_app; [exact (grp_on _ _ _ _ _ H)|exact IH].
Qed.

Lemma grp_local c i t h last B ops p : grp c i B last ops -> Forall (piece_ok c t h) B ->
  ready p -> can_start c t h -> (last = true \/ c_align c = true \/ is_other t = false) ->
  local c t p ops = Some (if last then Done else Between).
Proof.
  intros HG HO HP HS HL. destruct HG as [(f0 & e0 & B' & B1 & B2 & E1 & E2 & H1 & _ & HZ & HF & ->)|(f & W & -> & HW & HF & ->)].
  - assert (Hf : f_header f0 = h) by (rewrite E1 in HO; inversion HO as [|? ? Hp _]; exact (po_head _ _ _ _ Hp)).
    rewrite E2 in HF. apply Forall_app in HF. destruct HF as [HF1 HF2].
    apply local_group; auto.
    + rewrite Hf. exact HS.
    + discriminate.
    + constructor; [|constructor]. apply pdata_full; assumption.
    + cbn [concat]. rewrite app_nil_r, <- zlen_app, <- pdata_app, <- E2. right. right. unfold buf_size in HZ. lia.
  - inversion HO as [|? ? Hp _]; subst. apply local_group; auto.
    + rewrite (po_head _ _ _ _ Hp : f_header f = _). exact HS.
    + cbn. rewrite Z.add_0_r. exact (po_fits _ _ _ _ Hp).
Qed.

Lemma sents_local c i t h last F ops : sents c i last F ops -> Forall (piece_ok c t h) F ->
  forall p, ready p -> can_start c t h -> (last = true \/ c_align c = true \/ is_other t = false) ->
  (c_align c = true \/ is_other t = false \/ (length F <= 1)%nat) ->
  exists p', local c t p ops = Some p' /\ (if last then p' = Done else ready p').
Proof.
  induction 1 as [E|G ops H|G ops F ops2 H HS IH]; intros HO p HP HC HL HM.
  - exists p. split; [reflexivity|]. rewrite E. exact HP.
  - rewrite (grp_local c i t h last G ops p H HO HP HC HL). eexists. split; [reflexivity|].
    destruct last; [reflexivity|right; reflexivity].
  - apply Forall_app in HO. destruct HO as [HO1 HO2]. rewrite local_app.
    assert (HF : F = [] -> ops2 = [] /\ last = false).
    { intros ->. clear - HS. inversion HS as [E|G0 o0 [H0|H0]|G0 o0 F0 o2 [H0|H0]]; subst; auto.
      - destruct H0 as (? & ? & ? & ? & ? & H & _). discriminate.
      - destruct H0 as (? & ? & H & _). discriminate.
      - destruct H0 as (? & ? & ? & ? & ? & -> & _). discriminate.
      - destruct H0 as (? & ? & -> & _). discriminate. }
    destruct F as [|p0 F].
    + destruct (HF eq_refl) as [-> E]. subst last.
      rewrite (grp_local c i t h false G ops p H HO1 HP HC HL). exists Between. split; [reflexivity|right; reflexivity].
    + assert (HM' : c_align c = true \/ is_other t = false).
      { destruct HM as [HM|[HM|HM]]; auto. exfalso. rewrite app_length in HM. cbn in HM.
        destruct H as [(? & ? & ? & ? & ? & -> & _)|(? & ? & -> & _)]; cbn in HM; lia. }
      rewrite (grp_local c i t h false G ops p H HO1 HP HC (or_intror HM')).
      apply IH; auto; [right; reflexivity|]. destruct HM'; auto.
Qed.

Lemma grp_HI c i t h last B ops F hh : grp c i B last ops -> Forall (piece_ok c t h) B ->
  is_video t = false \/ (length B <= 1)%nat -> is_other t = false \/ (length B <= 1)%nat ->
  HI c hh F -> HI c (push i hh ops) (F ++ B).
Proof.
  intros HG HO HV HT HH.
  destruct HG as [(f0 & e0 & B' & B1 & B2 & E1 & E2 & H1 & H2 & HZ & HF & ->)|(f & W & -> & HW & HF & ->)].
  - rewrite push_group. cbn [concat]. rewrite app_nil_r.
    assert (ED : pdata B1 ++ pdata B2 = pdata B) by (rewrite E2, pdata_app; reflexivity).
    rewrite ED.
    assert (HF2 : Forall pfull B2) by (rewrite E2 in HF; apply Forall_app in HF; tauto).
    assert (HF1 : Forall pfull B1) by (rewrite E2 in HF; apply Forall_app in HF; tauto).
    pose proof (pmarks_range B2 HF2 (zlen (h_data hh) + zlen (pdata B1))) as R2.
    pose proof (pmarks_range B1 HF1 (zlen (h_data hh))) as R1.
    assert (EZ : zlen (pdata B) = zlen (pdata B1) + zlen (pdata B2)) by (rewrite <- ED; apply zlen_app).
    set (E := zlen (h_data hh)) in *.
    pose proof (HI_add c hh F f0 e0 B' (pmarks (E + zlen (pdata B1)) B2) true HH) as HA.
    cbv zeta in HA. rewrite <- E1 in HA. fold E in HA. apply HA.
    + exact HF.
    + eapply Forall_impl; [|exact R2]. cbv beta. intros m Hm. rewrite EZ. lia.
    + intros Ha.
      assert (EM : pmarks E B = pmarks E B1 ++ pmarks (E + zlen (pdata B1)) B2) by (rewrite E2; apply pmarks_app).
      rewrite EM. rewrite E2 in E1.
      assert (Hhd : exists e1 B1', B1 = (f0, e1) :: B1').
      { destruct B1 as [|[f1 e1] B1']; [congruence|]. cbn in E1. injection E1 as -> -> _. eauto. }
      destruct Hhd as (e1 & B1' & Eb).
      destruct (H2 Ha) as [HL|HL].
      * rewrite Eb in HL. cbn in HL. destruct B1'; [|cbn in HL; lia]. rewrite Eb. reflexivity.
      * assert (Hbig : 208 <= zlen (pdata B2)).
        { assert (HB2 : Forall (fun p => 8 <= zlen (snd p)) B2).
          { assert (HO2 : Forall (piece_ok c t h) B2) by (rewrite E2 in HO; apply Forall_app in HO; tauto).
            assert (Hlb : (2 <= length B)%nat).
            { rewrite E2, app_length. rewrite Eb. cbn. lia. }
            eapply Forall_impl; [|exact HO2]. intros p Hp. apply (po_big _ _ _ _ Hp Ha); destruct HV, HT; auto; lia. }
          clear - HB2 HL.
          assert (G : 8 * Z.of_nat (length B2) <= zlen (pdata B2)).
          { clear HL. induction HB2 as [|[f x] B2 Hx HB2 IH]; [cbn; lia|]. unfold pdata in *. cbn [map concat length snd] in *.
            rewrite zlen_app. lia. }
          lia. }
        cbn [filter]. rewrite filter_app.
        assert (Hnone : filter (near (E + zlen (pdata B))) (pmarks E B1) = []).
        { clear - R1 EZ Hbig. induction R1 as [|m l Hm R1 IH]; [reflexivity|]. cbn [filter].
          unfold near at 1. replace (E + zlen (pdata B) - 184 <? fst m) with false by lia. exact IH. }
        rewrite Hnone. unfold near at 1. cbn [fst]. pose proof (zlen_ge (pdata B1)).
        replace (E + zlen (pdata B) - 184 <? E) with false by lia. reflexivity.
  - rewrite push_group. unfold pdata at 1. cbn [map concat]. rewrite app_nil_r.
    inversion HO as [|? ? Hp _]; subst.
    pose proof (HI_add c hh F f (concat W) [] [] true HH) as HA. cbv zeta in HA.
    unfold pdata in HA. cbn [map concat snd] in HA. rewrite app_nil_r in HA.
    apply HA.
    + constructor; [exact (po_full _ _ _ _ Hp)|constructor].
    + constructor.
    + intros _. reflexivity.
Qed.

Lemma sents_HI c i t h last F ops : sents c i last F ops -> Forall (piece_ok c t h) F ->
  (is_video t = false /\ is_other t = false \/ forall G o l, grp c i G l o -> (length G <= 1)%nat \/ length G > length F)%nat ->
  forall hh F0, HI c hh F0 -> HI c (push i hh ops) (F0 ++ F).
Proof.
  induction 1 as [E|G ops H|G ops F ops2 H HS IH]; intros HO HV hh F0 HH.
  - rewrite app_nil_r. exact HH.
  - apply (grp_HI c i t h last G ops F0 hh H HO); [| |exact HH].
    + destruct HV as [[V1 V2]|HV]; [auto|]. right. destruct (HV _ _ _ H); lia.
    + destruct HV as [[V1 V2]|HV]; [auto|]. right. destruct (HV _ _ _ H); lia.
  - apply Forall_app in HO. destruct HO as [HO1 HO2]. rewrite push_app, app_assoc.
    apply IH; [exact HO2| |].
    + destruct HV as [HV|HV]; [auto|right]. intros G' o' l' H'. destruct (HV _ _ _ H') as [E|E]; [auto|].
      right. rewrite app_length in E. lia.
    + apply (grp_HI c i t h false G ops F0 hh H HO1); [| |exact HH].
      * destruct HV as [[V1 V2]|HV]; [auto|]. right. destruct (HV _ _ _ H) as [E|E]; [exact E|]. rewrite app_length in E. lia.
      * destruct HV as [[V1 V2]|HV]; [auto|]. right. destruct (HV _ _ _ H) as [E|E]; [exact E|]. rewrite app_length in E. lia.
Qed.

(* ---------- the buffer ---------- *)

Definition head_is (B : list (frame * list Z)) (d f : frame) : Prop :=
  f = match B with [] => d | p :: _ => fst p end.

Record BI (c : conf) (b : buf) (B : list (frame * list Z)) : Prop := {
  bi_phase : bf_phase b = match B with [] => BInit | _ => BFlushed end;
  bi_data : bf_data b = pdata B;
  bi_fl : bf_fl b = plen B;
  bi_cur : B <> [] -> head_is B (bf_cur b) (bf_cur b);
  bi_full : Forall pfull B;
  bi_small : zlen (pdata B) <= buf_size;
  bi_ring : c_align c = false -> RI b B
}.

Record BM (c : conf) (b : buf) (B : list (frame * list Z)) (f : frame) (x : list Z) : Prop := {
  bm_phase : bf_phase b = BStarted;
  bm_last : bf_last b = f;
  bm_data : bf_data b = pdata B ++ x;
  bm_fl : bf_fl b = plen B;
  bm_cur : head_is B f (bf_cur b);
  bm_full : Forall pfull B;
  bm_small : zlen (pdata B ++ x) <= buf_size;
  bm_ring : c_align c = false -> RI b B
}.

Record BD (c : conf) (b : buf) (f : frame) : Prop := {
  bd_phase : bf_phase b = BDirect;
  bd_data : bf_data b = [];
  bd_fl : bf_fl b = O;
  bd_cur : bf_cur b = f;
  bd_ring : c_align c = false -> RI b []
}.

Lemma plen_pos B : B <> [] -> Forall pfull B -> (0 < plen B)%nat.
Proof. intros H HF. pose proof (pdata_full B H HF). unfold plen. destruct (pdata B); [congruence|cbn; lia]. Qed.

Lemma force_ok c i last b B x : B <> [] -> Forall pfull B -> bf_data b = pdata B ++ x ->
  bf_fl b = plen B -> head_is B (bf_cur b) (bf_cur b) -> zlen (pdata B) <= buf_size ->
  (c_align c = false -> RI b B) ->
  exists b' ops, buf_force i (c_align c) last b = (b', ops) /\ packed c i B last ops /\
    bf_data b' = x /\ bf_fl b' = O /\ bf_last b' = bf_last b /\
    (bf_phase b', bf_cur b') = (match bf_phase b with
                                | BStarted => (BStarted, bf_last b)
                                | BFlushed => (BInit, bf_cur b)
                                | p => (p, bf_cur b) end) /\
    (c_align c = false -> RI b' []).
Proof.
  intros HB HF HD HL HC HZ HR. unfold buf_force.
  pose proof (plen_pos B HB HF) as Hp. replace (bf_fl b =? 0)%nat with false by lia.
  destruct B as [|[f0 e0] B'] eqn:EB; [congruence|]. rewrite <- EB in *.
  assert (Ec : bf_cur b = f0) by (rewrite EB in HC; exact HC).
  destruct (match bf_phase b with BStarted => (BStarted, bf_last b) | BFlushed => (BInit, bf_cur b) | p => (p, bf_cur b) end)
    as [ph cur] eqn:Ephs.
  assert (Es : skipn (bf_fl b) (bf_data b) = x) by (rewrite HL, HD; unfold plen; apply skipn_app_exact).
  assert (Ef : firstn (bf_fl b) (bf_data b) = pdata B) by (rewrite HL, HD; unfold plen; apply firstn_app_exact).
  eexists _, _. split; [reflexivity|]. cbn [bf_data bf_fl bf_last bf_phase bf_cur].
  split.
  { destruct (c_align c) eqn:Ea.
    - exists f0, e0, B', B, []. rewrite app_nil_r. split; [exact EB|]. split; [reflexivity|]. split; [exact HB|].
      split; [congruence|]. split; [exact HZ|]. split; [exact HF|].
      rewrite Ef, Ec. reflexivity.
    - destruct (force_pieces b B x i last (HR eq_refl) HB HF HD) as (B1 & B2 & E1 & E2 & E3 & E4).
      exists f0, e0, B', B1, B2. split; [exact EB|]. split; [exact E1|]. split; [exact E2|].
      split; [intros _; exact E3|]. split; [exact HZ|]. split; [exact HF|].
      unfold from in E4. rewrite Ec in *. exact E4. }
  split; [exact Es|]. split; [reflexivity|]. split; [reflexivity|]. split; [reflexivity|].
  intros Ha. rewrite Ha. specialize (HR Ha). apply RI_nil; cbn [bf_ring bf_w bf_r bf_full]; auto.
  - exact (ri_len _ _ HR).
  - exact (ri_w _ _ HR).
Qed.

Fixpoint bwrites (i : nat) (align : bool) (W : list (list Z)) (b : buf) : option (buf * list op) :=
  match W with
  | [] => Some (b, [])
  | x :: W =>
      match buf_write i align x b with
      | Some (b, ops1) =>
          match bwrites i align W b with
          | Some (b, ops2) => Some (b, ops1 ++ ops2)
          | None => None
          end
      | None => None
      end
  end.

Inductive wout (c : conf) (i : nat) (B : list (frame * list Z)) (f : frame) (x : list Z)
  : list op -> buf -> Prop :=
| w_buf b : BM c b B f x -> wout c i B f x [] b
| w_flushed b ops : packed c i B false ops -> BM c b [] f x -> wout c i B f x ops b
| w_direct b pre W : B = [] /\ pre = [] \/ packed c i B false pre -> concat W = x -> Forall full W ->
    W <> [] -> BD c b f -> wout c i B f x (pre ++ OStart i f :: map (OWrite i) W) b.

Lemma direct_writes c i align W : forall b f, BD c b f ->
  bwrites i align W b = Some (b, map (OWrite i) W).
Proof.
  induction W as [|x W IH]; intros b f H; [reflexivity|]. cbn [bwrites]. unfold buf_write.
  rewrite (bd_phase _ _ _ H). rewrite (IH b f H). reflexivity.
Qed.

Lemma RI_same b b' B : bf_ring b' = bf_ring b -> bf_w b' = bf_w b -> bf_r b' = bf_r b ->
  bf_full b' = bf_full b -> RI b B -> RI b' B.
Proof.
  intros E1 E2 E3 E4 [L W R FU P N]. assert (EF : from b' = from b) by (unfold from; rewrite E2, E3, E4; reflexivity).
  constructor; rewrite ?E1, ?E2, ?E3, ?E4, ?EF; assumption.
Qed.

Lemma write_step c i b B f x y : BM c b B f x -> y <> [] ->
  exists b' ops, buf_write i (c_align c) y b = Some (b', ops) /\
    (ops = [] /\ BM c b' B f (x ++ y) \/
     packed c i B false ops /\ BM c b' [] f (x ++ y) \/
     (exists pre W, (B = [] /\ pre = [] \/ packed c i B false pre) /\ concat W = x ++ y /\
        Forall full W /\ W <> [] /\ ops = pre ++ OStart i f :: map (OWrite i) W /\ BD c b' f)).
Proof.
  intros H Hy. unfold buf_write. rewrite (bm_phase _ _ _ _ _ H).
  destruct (buf_size <? zlen (bf_data b) + zlen y) eqn:E1.
  2:{ replace (zlen (bf_data b) + zlen y <=? buf_size) with true by lia.
      eexists _, _. split; [reflexivity|]. left. split; [reflexivity|].
      destruct H as [P1 P2 P3 P4 P5 P6 P7 P8].
      constructor; cbn [set_data bf_phase bf_last bf_data bf_fl bf_cur]; auto.
      - rewrite P3, app_assoc. reflexivity.
      - rewrite app_assoc, <- P3, zlen_app. lia.
      - intros Ha. apply (RI_same b); auto. }
  (* the buffer is flushed *)
  assert (G : exists b1 pre, buf_force i (c_align c) false b = (b1, pre) /\
      (B = [] /\ pre = [] \/ packed c i B false pre) /\ BM c b1 [] f x).
  { destruct B as [|p0 B0] eqn:EB.
    - exists b, []. unfold buf_force. rewrite (bm_fl _ _ _ _ _ H). split; [reflexivity|]. split; [auto|exact H].
    - rewrite <- EB in *. assert (HB : B <> []) by (rewrite EB; discriminate).
      destruct H as [P1 P2 P3 P4 P5 P6 P7 P8].
      rewrite zlen_app in P7. pose proof (zlen_ge x) as Hx. pose proof (zlen_ge (pdata B)) as Hb0.
      destruct (force_ok c i false b B x HB P6 P3 P4 ltac:(rewrite EB in *; exact P5) ltac:(clear - P7 Hx; lia) P8)
        as (b1 & pre & F1 & F2 & F3 & F4 & F5 & F6 & F7).
      exists b1, pre. split; [exact F1|]. split; [right; exact F2|].
      rewrite P1 in F6. injection F6 as F6 F8.
      constructor; auto; try congruence.
      + unfold head_is. congruence.
      + change (zlen x <= buf_size). clear - P7 Hx Hb0. lia. }
  destruct G as (b1 & pre & G1 & G2 & G3). rewrite G1.
  assert (EP : packed c i B false pre \/ B = [] /\ pre = []) by tauto.
  destruct G3 as [P1 P2 P3 P4 P5 P6 P7 P8]. cbn [app pdata map concat] in P3.
  unfold pdata in P3. cbn [map concat app] in P3.
  destruct (zlen (bf_data b1) + zlen y <=? buf_size) eqn:E2.
  - eexists _, _. split; [reflexivity|].
    assert (BM c (set_data b1 BStarted (bf_data b1 ++ y)) [] f (x ++ y)).
    { constructor; cbn [set_data bf_phase bf_last bf_data bf_fl bf_cur]; auto.
      - rewrite P3. reflexivity.
      - change (pdata [] ++ x ++ y) with (x ++ y). rewrite <- P3, zlen_app. lia.
      - intros Ha. apply (RI_same b1); auto. }
    destruct G2 as [[-> ->]|G2]; [left; auto|right; left; auto].
  - eexists _, _. split; [reflexivity|]. right. right.
    exists pre, (match x with [] => [] | _ => [x] end ++ [y]). split; [exact G2|].
    split; [destruct x; cbn; rewrite ?app_nil_r; reflexivity|].
    split; [destruct x; repeat constructor; try discriminate; exact Hy|].
    split; [destruct x; discriminate|].
    split. { rewrite P3. assert (Ec : bf_cur b1 = f) by exact P5. rewrite Ec. destruct x; reflexivity. }
    constructor; cbn [set_data bf_phase bf_last bf_data bf_fl bf_cur]; auto.
    intros Ha. apply (RI_same b1); auto.
Qed.

Lemma packed_nil c i last ops : ~ packed c i [] last ops.
Proof. intros (? & ? & ? & ? & ? & H & _). discriminate. Qed.

Lemma bwrites_out c i W : Forall full W -> forall b B f x, BM c b B f x ->
  exists b' ops, bwrites i (c_align c) W b = Some (b', ops) /\ wout c i B f (x ++ concat W) ops b'.
Proof.
  intros HF. induction HF as [|y W Hy HF IH]; intros b B f x H.
  - exists b, []. split; [reflexivity|]. cbn. rewrite app_nil_r. constructor. exact H.
  - cbn [bwrites concat].
    destruct (write_step c i b B f x y H Hy) as (b1 & o1 & E1 & HC). rewrite E1.
    destruct HC as [[-> HM]|[[HP HM]|(pre & W1 & HP & EC & F1 & N1 & -> & HD)]].
    + destruct (IH _ _ _ _ HM) as (b2 & o2 & E2 & HW). rewrite E2. exists b2, o2.
      split; [reflexivity|]. rewrite <- app_assoc in HW. exact HW.
    + destruct (IH _ _ _ _ HM) as (b2 & o2 & E2 & HW). rewrite E2. exists b2, (o1 ++ o2).
      split; [reflexivity|]. rewrite <- app_assoc in HW.
      inversion HW as [b0 HM2|b0 ops0 HP2 HM2|b0 pre W2 HP2 EC2 F2 N2 HD2]; subst.
      * rewrite app_nil_r. apply w_flushed; assumption.
      * exfalso. exact (packed_nil _ _ _ _ HP2).
      * destruct HP2 as [[_ ->]|HP2]; [|exfalso; exact (packed_nil _ _ _ _ HP2)].
        cbn [app]. apply w_direct; auto.
    + rewrite (direct_writes c i (c_align c) W b1 f HD). eexists _, _. split; [reflexivity|].
      rewrite <- app_assoc. cbn [app]. rewrite <- map_app.
      apply w_direct; auto.
      * rewrite concat_app, EC, app_assoc. reflexivity.
      * apply Forall_app. auto.
      * destruct W1; [congruence|discriminate].
Qed.

Lemma BM_flush c i last b B f x : BM c b B f x -> x <> [] ->
  exists b' ops, buf_flush i (c_align c) last b = (b', ops) /\
    (if last then packed c i (B ++ [(f, x)]) true ops /\ BI c b' []
     else ops = [] /\ BI c b' (B ++ [(f, x)])).
Proof.
  intros H Hx. destruct H as [P1 P2 P3 P4 P5 P6 P7 P8]. unfold buf_flush. rewrite P1.
  match goal with |- context [buf_force i (c_align c) true ?B] => set (b1 := B) end.
  assert (EP : pdata (B ++ [(f, x)]) = pdata B ++ x).
  { rewrite pdata_app. unfold pdata at 2. cbn [map concat snd]. rewrite app_nil_r. reflexivity. }
  assert (HI1 : BI c b1 (B ++ [(f, x)])).
  { constructor; subst b1; cbn [bf_phase bf_data bf_fl bf_cur].
    - destruct B; reflexivity.
    - rewrite EP. exact P3.
    - unfold plen. rewrite EP, P3. reflexivity.
    - intros _. unfold head_is in *. destruct B; exact P5.
    - apply Forall_app. split; [exact P6|repeat constructor; exact Hx].
    - rewrite EP. exact P7.
    - intros Ha. apply (RI_push b B f x (P8 Ha)); cbn [bf_ring bf_w bf_r bf_full]; rewrite ?Ha; try reflexivity.
      unfold plen. rewrite EP, P2, P3. reflexivity. }
  destruct last.
  - assert (HB : B ++ [(f, x)] <> []) by (destruct B; discriminate).
    destruct HI1 as [Q1 Q2 Q3 Q4 Q5 Q6 Q7].
    destruct (force_ok c i true b1 (B ++ [(f, x)]) [] HB Q5 ltac:(rewrite app_nil_r; exact Q2) Q3 (Q4 HB) Q6 Q7)
      as (b2 & ops & F1 & F2 & F3 & F4 & F5 & F6 & F7).
    exists b2, ops. split; [exact F1|]. split; [exact F2|].
    rewrite Q1 in F6. destruct (B ++ [(f, x)]); [congruence|]. injection F6 as F6 F8.
    constructor; auto. constructor. cbn. unfold buf_size. lia.
  - exists b1, []. split; [reflexivity|]. split; [reflexivity|exact HI1].
Qed.

Lemma BI_start c b B f : BI c b B -> exists b', buf_start f b = Some b' /\ BM c b' B f [].
Proof.
  intros [P1 P2 P3 P4 P5 P6 P7]. unfold buf_start. rewrite P1. destruct B as [|p B].
  - eexists. split; [reflexivity|]. constructor; cbn [bf_phase bf_last bf_data bf_fl bf_cur]; auto; try reflexivity.
    intros Ha. apply (RI_same b); auto.
  - eexists. split; [reflexivity|]. constructor; cbn [bf_phase bf_last bf_data bf_fl bf_cur]; auto; try reflexivity.
    + rewrite app_nil_r. exact P2.
    + exact (P4 ltac:(discriminate)).
    + rewrite app_nil_r. exact P6.
    + intros Ha. apply (RI_same b); auto.
Qed.

(* A whole frame. *)
Lemma buf_frame c i last b B f W : BI c b B -> W <> [] -> Forall full W ->
  exists b1 b2 b3 o1 o2 F1 B',
    buf_start f b = Some b1 /\ bwrites i (c_align c) W b1 = Some (b2, o1) /\
    buf_flush i (c_align c) last b2 = (b3, o2) /\
    B ++ [(f, concat W)] = F1 ++ B' /\ sents c i last F1 (o1 ++ o2) /\ BI c b3 B' /\
    (last = true -> B' = []).
Proof.
  intros HI0 HW HF. destruct (BI_start c b B f HI0) as (b1 & E1 & HM).
  destruct (bwrites_out c i W HF b1 B f [] HM) as (b2 & o1 & E2 & HO). cbn [app] in HO.
  assert (Hc : concat W <> []).
  { clear - HW HF. destruct HF as [|x W Hx HF]; [congruence|]. cbn. destruct x; [congruence|discriminate]. }
  inversion HO as [b0 HM2 Eo Eb|b0 ops0 HP HM2 Eo Eb|b0 pre W2 HP EC F2 N2 HD Eo Eb]; subst.
  - destruct (BM_flush c i last b2 B f (concat W) HM2 Hc) as (b3 & o2 & E3 & HR).
    destruct last.
    + exists b1, b2, b3, [], o2, (B ++ [(f, concat W)]), []. rewrite app_nil_r. cbn [app].
      repeat (split; [assumption || reflexivity|]). split; [apply s_one; left; exact (proj1 HR)|].
      split; [exact (proj2 HR)|reflexivity].
    + destruct HR as [-> HB]. exists b1, b2, b3, [], [], [], (B ++ [(f, concat W)]). cbn [app].
      repeat (split; [assumption || reflexivity|]). split; [apply s_nil; reflexivity|].
      split; [exact HB|discriminate].
  - destruct (BM_flush c i last b2 [] f (concat W) HM2 Hc) as (b3 & o2 & E3 & HR). cbn [app] in HR.
    destruct last.
    + exists b1, b2, b3, o1, o2, (B ++ [(f, concat W)]), []. rewrite app_nil_r.
      repeat (split; [assumption || reflexivity|]).
      split; [apply s_more; [left; exact HP|apply s_one; left; exact (proj1 HR)]|].
      split; [exact (proj2 HR)|reflexivity].
    + destruct HR as [-> HB]. exists b1, b2, b3, o1, [], B, [(f, concat W)]. rewrite app_nil_r.
      repeat (split; [assumption || reflexivity|]). split; [apply s_one; left; exact HP|].
      split; [exact HB|discriminate].
  - destruct HD as [D1 D2 D3 D4 D5].
    assert (E3 : buf_flush i (c_align c) last b2 = (set_data b2 BInit (bf_data b2), [OFlush i last]))
      by (unfold buf_flush; rewrite D1; reflexivity).
    exists b1, b2, (set_data b2 BInit (bf_data b2)), (pre ++ OStart i f :: map (OWrite i) W2), [OFlush i last],
      (B ++ [(f, concat W)]), []. rewrite app_nil_r.
    split; [exact E1|]. split; [exact E2|]. split; [exact E3|]. split; [reflexivity|].
    split.
    { assert (HG : grp c i [(f, concat W)] last (OStart i f :: map (OWrite i) W2 ++ [OFlush i last])).
      { right. exists f, W2. rewrite EC. split; [reflexivity|]. split; [exact N2|]. split; [exact F2|]. reflexivity. }
      rewrite <- app_assoc. cbn [app]. destruct HP as [[-> ->]|HP].
      - cbn [app]. apply s_one. exact HG.
      - apply s_more; [left; exact HP|]. apply s_one. exact HG. }
    split; [|reflexivity].
    constructor; cbn [set_data bf_phase bf_data bf_fl bf_cur].
    + reflexivity.
    + exact D2.
    + exact D3.
    + congruence.
    + constructor.
    + cbn. unfold buf_size. lia.
    + intros Ha. apply (RI_same b2); auto.
Qed.

(* A flush in between. *)
Lemma buf_late c i b B : BI c b B ->
  exists b' ops, buf_force i (c_align c) false b = (b', ops) /\ sents c i false B ops /\ BI c b' [].
Proof.
  intros [P1 P2 P3 P4 P5 P6 P7]. destruct B as [|p B'] eqn:EB.
  - exists b, []. unfold buf_force. rewrite P3. split; [reflexivity|]. split; [apply s_nil; reflexivity|].
    constructor; auto.
  - rewrite <- EB in *. assert (HB : B <> []) by (rewrite EB; discriminate).
    destruct (force_ok c i false b B [] HB P5 ltac:(rewrite app_nil_r; exact P2) P3 (P4 HB) P6 P7)
      as (b2 & ops & F1 & F2 & F3 & F4 & F5 & F6 & F7).
    exists b2, ops. split; [exact F1|]. split; [apply s_one; left; exact F2|].
    rewrite P1 in F6. cbn iota in F6. injection F6 as F6 F8.
    constructor; auto. constructor. cbn. unfold buf_size. lia.
Qed.
