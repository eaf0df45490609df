(* One turn, the loop over unread bytes, reads, and whole histories. *)

From Coq Require Import List ZArith Lia Bool Arith.
From Coq Require Import ZifyBool ZifyNat.
From Verif Require Import Lists Bytes RtmpModel RtmpProofs RtmpProofs2.
Import ListNotations.
Open Scope Z_scope.

Lemma chunk_mem_last c s sts d u v x t : chunk_mem c s sts d u v -> chunk_mem c (set_last s x t) sts d u v.
Proof. intros H. exact H. Qed.

Lemma chunk_mem_streams c s sts d u v x : chunk_mem c s sts d u v -> chunk_mem c (set_streams s x) sts d u v.
Proof. intros H. exact H. Qed.

Lemma lk_set c s sts d u v cs b h h1 b1 : lk c s sts d u v cs b h -> bok s b1 -> b_data b1 = u ->
  lk c (set_streams s (set_nth sts (Z.to_nat cs) (h1, snd (nth (Z.to_nat cs) sts (chdr0, [])) ++ [b1])))
     sts d u v cs b1 h1.
Proof.
  intros (A & B & C & D & E & F & G) H1 H2. unfold lk. cbn [set_streams s_chg s_free s_csid s_streams].
  split; [exact A|]. split; [exact B|]. split; [exact C|]. split; [exact D|]. split; [exact H1|]. auto.
Qed.

(* parsing the header of a linked buffer *)
Lemma head_ok c s sts d u v cs b h fmt n : lk c s sts d u v cs b h -> b_pos b = 0 ->
  parse_basic u = Some (fmt, cs, n) -> s_last s = d_last d -> s_t3 s = d_t3 d ->
  len u <= buf_cap s ->
  (forall e, parse_hdr (d_t3 d) (d_last d) h fmt (drop n (u ++ e)) =
             parse_hdr (d_t3 d) (d_last d) (fst (dstream d cs)) fmt (drop n (u ++ e))) ->
  match dec c d u with
  | DMore => v = [] -> exists s1, process c s = Some (Go s1) /\ at_ c s1 d u v /\ s_osize s1 = 0
  | DClose o => process c s = Some (Closed o)
  | DDone d1 rest => exists s1, process c s = Some (Go s1) /\ mid c s1 d1 (rest ++ v)
  end.
Proof.
  intros L HP PB EL ET HU HE.
  pose proof (lk_cur _ _ _ _ _ _ _ _ _ L) as ECUR.
  pose proof (lk_stream _ _ _ _ _ _ _ _ _ L) as EST.
  pose proof (lk_idx _ _ _ _ _ _ _ _ _ L) as HI.
  pose proof L as (CM & HFr & ECS & HCS & BO & BD & ESS).
  pose proof (parse_basic_size _ _ _ _ PB) as (N1 & N2).
  unfold dec, process. rewrite ECUR, HP. cbn [Z.eqb]. rewrite BD, PB.
  replace (cs >=? max_streams c) with false by lia.
  unfold link_orphan. rewrite ECS. replace (cs =? 0) with false by lia.
  cbv iota beta zeta. rewrite ECS, EST. cbn [fst snd]. rewrite EL, ET.
  pose proof (HE []) as HE0. rewrite app_nil_r in HE0. rewrite HE0.
  destruct (parse_hdr (d_t3 d) (d_last d) (fst (dstream d cs)) fmt (drop n u)) as [h1|h1 last t3 n1] eqn:PH.
  - intros ->. eexists. split; [reflexivity|].
    unfold set_stream. rewrite ESS, set_nth_twice. split; [|exact (proj1 (proj2 (proj2 CM)))].
    apply (at_head c _ d u [] sts fmt cs n b h1); auto.
    { apply (lk_set c s sts d u [] cs b h h1 b L BO BD). }
    intros e. rewrite drop_app by lia. exact (parse_hdr_again _ _ _ _ _ _ e PH).
  - unfold set_stream. rewrite ESS, set_nth_twice.
    destruct (c_mlen h1 >? max_message c) eqn:EM.
    + cbn. unfold set_cur_buf. cbn. rewrite ECS. replace (cs =? 0) with false by lia. cbn.
      destruct CM as ((_ & _ & E) & _). rewrite E. reflexivity.
    + pose proof (lk_set c s sts d u v cs b h h1 b L BO BD) as L1.
      match goal with |- context [chunk_body c (set_cur_buf ?a ?b1)] =>
        assert (ESC : set_cur_buf a b1 = set_last (set_streams s (set_nth sts (Z.to_nat cs)
            (h1, snd (nth (Z.to_nat cs) sts (chdr0, [])) ++ [b1]))) last t3) end.
      { transitivity (set_last (set_cur_buf (set_streams s (set_nth sts (Z.to_nat cs) (h1, snd (nth (Z.to_nat cs) sts (chdr0, [])) ++ [b]))) (set_data b u (n + n1))) last t3).
        - unfold set_cur_buf, set_last, set_stream. cbn. destruct (s_csid s =? 0); reflexivity.
        - rewrite (lk_set_cur _ _ _ _ _ _ _ _ _ _ L1). reflexivity. }
      rewrite ESC.
      pose proof (lk_set c s sts d u v cs b h h1 (set_data b u (n + n1)) L (bok_set _ _ _ _ BO) eq_refl) as L2.
      match type of L2 with lk _ ?a _ _ _ _ _ _ _ =>
        assert (L3 : lk c (set_last a last t3) sts d u v cs (set_data b u (n + n1)) h1) by exact L2 end.
      pose proof (parse_hdr_size _ _ _ _ _ _ _ _ _ PH) as (S1 & S2). rewrite len_drop in S2 by lia.
      pose proof (body_ok _ _ _ _ _ _ _ _ _ (n + n1) L3 eq_refl ltac:(lia) HU) as B.
      cbn [set_last set_streams s_last s_t3] in B.
      destruct (dbody c d cs h1 last t3 (n + n1) u) eqn:ED; [|exact B|exact B].
      intros ->. eexists. split; [exact B|]. split; [|exact (proj1 (proj2 (proj2 CM)))].
      apply (at_body c _ d u [] sts fmt cs n n1 (set_data b u (n + n1)) h1); auto. lia.
Qed.

Lemma process_ok c s d u v : at_ c s d u v -> u <> [] -> Forall is_byte u -> len u <= buf_cap s ->
  match dec c d u with
  | DMore => v = [] -> exists s1, process c s = Some (Go s1) /\ at_ c s1 d u v /\ s_osize s1 = 0
  | DClose o => process c s = Some (Closed o)
  | DDone d1 rest => exists s1, process c s = Some (Go s1) /\ mid c s1 d1 (rest ++ v)
  end.
Proof.
  intros A NE FB HU. destruct A as [b r CM ECS EL ET EF HR BD BP | sts fmt cs n b h EV L PB BP EL ET HE | sts fmt cs n n1 b h EV L PB PH BP HM].
  - destruct (parse_basic u) as [[[fmt cs] n]|] eqn:PB.
    + destruct (parse_basic_csid _ _ _ _ FB PB) as (C2 & _).
      destruct (cs >=? max_streams c) eqn:EM.
      { unfold dec, process, cur_buf. rewrite ECS, EF. cbn [Z.eqb]. rewrite BP, BD, PB, EM. cbn [Z.eqb].
        destruct CM as ((_ & _ & E) & _). rewrite E. reflexivity. }
      pose proof CM as (SM & M & HO & HC & HN & HS). pose proof M as (M1 & M2 & M3 & M4 & M5 & M6 & M7).
      set (s1 := set_streams (set_csid (set_free s r) cs) (set_nth (s_streams s) (Z.to_nat cs)
         (fst (nth (Z.to_nat cs) (s_streams s) (chdr0, [])), snd (nth (Z.to_nat cs) (s_streams s) (chdr0, [])) ++ [b]))).
      assert (L1 : lk c s1 (s_streams s) d u v cs b (fst (nth (Z.to_nat cs) (s_streams s) (chdr0, [])))).
      { rewrite EF in M2. inversion M2 as [|? ? B1 B2]; subst.
        unfold lk, s1. cbn [set_streams set_csid set_free s_chg s_free s_csid s_streams].
        split.
        { unfold chunk_mem, same, mem in *. cbn. repeat (split; [solve [tauto]|]). tauto. }
        split; [exact HR|]. split; [reflexivity|]. split; [lia|]. split; [exact B1|]. auto. }
      pose proof (same_nth _ _ _ cs SM) as (SN1 & SN2).
      assert (EP : process c s = process c s1).
      { pose proof (lk_cur _ _ _ _ _ _ _ _ _ L1) as EC1.
        unfold process. rewrite EC1. unfold cur_buf at 1. rewrite ECS, EF. cbn [Z.eqb]. rewrite BP. cbn [Z.eqb].
        rewrite BD, PB, EM. unfold link_orphan. rewrite ECS, EF. cbn [Z.eqb].
        unfold s1 at 1. cbn [s_csid set_streams set_csid set_free]. replace (cs =? 0) with false by lia.
        reflexivity. }
      rewrite EP. apply (head_ok c s1 (s_streams s) d u v cs b (fst (nth (Z.to_nat cs) (s_streams s) (chdr0, []))) fmt n L1 BP PB EL ET HU).
      intros e. rewrite SN1. reflexivity.
    + unfold dec. rewrite PB. intros ->. exists s. split; [|split].
      * unfold process, cur_buf. rewrite ECS, EF. cbn [Z.eqb]. rewrite BP. cbn [Z.eqb]. rewrite BD, PB. reflexivity.
      * eapply at_orphan; eauto.
      * exact (proj1 (proj2 (proj2 CM))).
  - apply (head_ok c s sts d u v cs b h fmt n); auto.
  - pose proof (lk_cur _ _ _ _ _ _ _ _ _ L) as ECUR.
    pose proof (parse_basic_size _ _ _ _ PB) as (N1 & N2).
    pose proof (parse_hdr_size _ _ _ _ _ _ _ _ _ PH) as (S1 & S2). rewrite len_drop in S2 by lia.
    pose proof L as (CM & HFr & ECS & HCS & BO & BD & ESS).
    unfold dec, process. rewrite ECUR, BP. replace (n + n1 =? 0) with false by lia.
    rewrite PB. replace (cs >=? max_streams c) with false by lia. rewrite PH.
    replace (c_mlen h >? max_message c) with false by lia.
    pose proof (body_ok _ _ _ _ _ _ _ _ _ (n + n1) L BP ltac:(lia) HU) as B.
    destruct (dbody c d cs h (s_last s) (s_t3 s) (n + n1) u) eqn:ED; [|exact B|exact B].
    intros EV1. exists s. split; [exact B|]. split; [|rewrite (proj1 (proj2 (proj2 CM))), EV; reflexivity].
    eapply at_body; eauto.
Qed.

(* ---- the unread bytes ---- *)

Lemma mem_ids c s sts n p : mem c s sts -> (s_nid s <= n)%nat -> (s_npool s <= p)%nat -> mem c (set_ids s n p) sts.
Proof.
  intros (M1 & M2 & M3 & M4 & M5 & M6 & M7) H1 H2. unfold mem, bok, buf_cap in *. cbn.
  split. { eapply Forall_impl; [|exact M1]. cbn. intros x F. eapply Forall_impl; [|exact F]. intros b. apply bufok_mono. exact H1. }
  split. { eapply Forall_impl; [|exact M2]. intros b. apply bufok_mono. exact H1. }
  split; [exact M3|]. split; [|auto].
  eapply Forall_impl; [|exact M4]. cbn. lia.
Qed.

(* the head of the free buffers, a new one if there is none *)
Lemma with_buf_free c s d w : mid c s d w -> exists s1 b r, with_buf s = s1 /\ s_free s1 = b :: r /\
  mid c (set_free s1 r) d w /\ bok s1 b /\ (s_free s <> [] -> s1 = s) /\
  (s_free s = [] -> r = [] /\ b_data b = [] /\ b_pos b = 0 /\ (forall o, s_old s = Some o -> b_id b <> o_id o)) /\ s_csid s1 = 0 /\
  s_old s1 = s_old s /\ s_osize s1 = s_osize s /\ s_chg s1 = s_chg s /\ s_live s1 = s_live s /\ s_chunk s1 = s_chunk s /\
  mem c s1 (s_streams s1).
Proof.
  intros (P & C0 & HC). pose proof P as (SM & EL & ET & M & HO & HN & HS & HF & HW).
  pose proof M as (M1 & M2 & M3 & M4 & M5 & M6 & M7).
  unfold with_buf. rewrite C0. cbn [Z.eqb].
  destruct (s_free s) as [|b r] eqn:EF.
  - unfold alloc_in_buf. do 3 eexists. split; [reflexivity|]. cbn [set_free set_ids s_free].
    split; [reflexivity|].
    assert (M' : mem c (set_ids s (S (s_nid s)) (s_npool s)) (s_streams s)) by (apply mem_ids; [exact M|lia|lia]).
    split.
    { split; [|split; [exact C0|exact HC]]. unfold premid. cbn [set_free set_ids s_streams s_last s_t3 s_osize s_old s_free s_nid s_live s_chg].
      split; [exact SM|]. split; [exact EL|]. split; [exact ET|]. split.
      { unfold mem in *. cbn in *. rewrite EF in M'. exact M'. }
      split; [exact HO|]. split; [exact HN|]. split.
      { intros o Ho. destruct (HS o Ho) as (A & B). split; [lia|exact B]. }
      split; [reflexivity|exact HW]. }
    split; [repeat split; cbn; lia|].
    split; [congruence|]. split.
    { intros _. cbn. repeat split; auto. intros o Ho. destruct (HS o Ho) as (A & _). lia. }
    split; [exact C0|]. do 5 (split; [reflexivity|]).
    unfold mem in *. cbn in *. destruct M' as (A1 & A2 & A3). split; [exact A1|]. split; [|exact A3].
    constructor; [|constructor]. repeat split; cbn; lia.
  - exists s, b, r. split; [reflexivity|]. split; [exact EF|]. split.
    { split; [|split; [exact C0|exact HC]]. unfold premid, same, mem in *. cbn.
      assert (M2' : Forall (bok s) r) by (inversion M2; auto). repeat (split; [solve [tauto]|]). split.
      { intros X. exfalso. destruct (HN X). discriminate. }
      split; [exact HS|]. split; [|exact HW]. intros X. specialize (HF X). discriminate. }
    split. { inversion M2; auto. }
    split; [auto|]. split; [discriminate|]. split; [exact C0|]. do 5 (split; [reflexivity|]). exact M.
Qed.

Lemma fill_old_ok c s d w : mid c s d w -> w <> [] ->
  exists s1 u v, fill_old s = Some s1 /\ w = u ++ v /\ u <> [] /\ at_ c s1 d u v /\ len u <= buf_cap s1 /\
    buf_cap s1 = d_chunk d + max_chunk_header /\ (v <> [] -> len u = buf_cap s1).
Proof.
  intros MD NE. destruct (with_buf_free c s d w MD) as (s1 & b & r & EW & EF & MD1 & BO & HA & HB & C1 & EO & EZ & EG & ELV & ECH & M).
  pose proof MD as (P & C0 & HC). pose proof P as (SM & EL & ET & M0 & HO & HN & HS & HF & HW).
  pose proof MD1 as (P1 & _ & HC1). pose proof P1 as (SM1 & EL1 & ET1 & M1 & HO1 & HN1 & HS1 & HF1 & HW1).
  cbn [set_free s_streams s_last s_t3 s_osize s_old s_free s_nid s_live s_chg] in *.
  unfold fill_old. rewrite EW.
  assert (ECB : cur_buf s1 = Some b) by (unfold cur_buf; rewrite C1, EF; reflexivity).
  rewrite ECB. destruct (s_old s1) as [o|] eqn:EOL; [|exfalso; destruct (HN (eq_sym EO)); congruence].
  destruct (HS o (eq_sym EO)) as (HI & HS2). destruct (HS2 NE) as (HL & HOF & HD).
  pose proof BO as (B1 & B2 & B3). pose proof M as (_ & _ & M3 & M4 & M5 & M6 & M7).
  assert (LW : len (o_data o) = o_off o + len w).
  { rewrite <- HD. rewrite len_drop by lia. lia. }
  pose proof (len_nonneg _ w) as LW0.
  assert (LW1 : 0 < len w) by (destruct w; [congruence|rewrite len_cons; pose proof (len_nonneg _ w); lia]).
  assert (CAP : 19 <= buf_cap s1) by (unfold buf_cap, max_chunk_header; lia).
  replace (s_osize s1) with (len w) by lia. rewrite B2.
  set (n := Z.min (len w) (buf_cap s1)).
  rewrite (proj2 (is_live_in s1 (o_pool o))) by (rewrite ELV; exact HL).
  rewrite B1, (proj2 (is_live_in s1 (s_pool s1)) M3).
  replace (o_off o + len w <=? len (o_data o)) with true by lia.
  assert (HCAP : len w <= buf_cap s1 \/ (s_chg s = true /\ len w > buf_cap s1)).
  { destruct (s_chg s) eqn:EE; [lia|]. left. specialize (HW eq_refl). unfold buf_cap in *. lia. }
  assert (HID : (len w <=? n) || negb (b_id b =? o_id o)%nat = true).
  { destruct HCAP as [H|[H H2]]; [replace (len w <=? n) with true by lia; reflexivity|].
    destruct (HB (HF H)) as (_ & _ & _ & X). specialize (X o (eq_sym EO)).
    rewrite (proj2 (Nat.eqb_neq _ _) X). apply orb_true_r. }
  rewrite HID. cbn [andb]. rewrite HD.
  assert (ESET : forall b1, set_cur_buf s1 b1 = set_free s1 (b1 :: r)).
  { intros b1. unfold set_cur_buf. rewrite C1, EF. reflexivity. }
  rewrite ESET.
  assert (MF : forall b1, bok s1 b1 -> mem c (set_free s1 (b1 :: r)) (s_streams s1)).
  { intros b1 Hb1. unfold mem in *. cbn in *. destruct M as (A1 & A2 & A3). split; [exact A1|]. split; [|exact A3].
    rewrite EF in A2. inversion A2 as [|? ? _ A4]; subst. constructor; [exact Hb1|exact A4]. }
  destruct (len w - n =? 0) eqn:EN.
  - (* all of it fits *)
    assert (n = len w) as EN1 by lia. rewrite EN1. rewrite take_all by lia.
    destruct (s_chg s1) eqn:EC.
    + cbn [set_old set_free s_chg]. rewrite EC.
      assert (PF : premid c (set_old (set_free s1 (set_data b w 0 :: r)) None 0) d [] -> False \/ True) by (intros; auto).
      clear PF.
      (* the old pool goes *)
      unfold finalize_set_chunk_size. cbn [set_old set_free s_oldpool s_chg]. rewrite EC.
      destruct (s_oldpool s1) as [p|] eqn:EP; [|congruence]. destruct M7 as (_ & HP & NP).
      unfold destroy_pool, is_live. cbn [set_old set_free s_live].
      pose proof (proj2 (is_live_in s1 p) HP) as HPL. unfold is_live in HPL. rewrite HPL.
      eexists. exists w, []. split; [reflexivity|]. split; [rewrite app_nil_r; reflexivity|]. split; [exact NE|].
      split.
      { apply (at_orphan c _ d w [] (set_data b w 0) r); cbn; auto; try congruence; try (intros; discriminate).
        - unfold chunk_mem. cbn. split; [exact SM1|]. split.
          { specialize (MF (set_data b w 0) (bok_set _ _ _ _ BO)). unfold mem in *. cbn in *.
            destruct MF as (A1 & A2 & A3 & A4 & A5 & A6 & A7).
            split; [exact A1|]. split; [exact A2|]. split; [apply remove_in; auto|].
            split; [apply Forall_remove; exact A4|]. auto. }
          split; [reflexivity|]. split; [discriminate|]. split; [reflexivity|congruence]. }
      unfold buf_cap. cbn. destruct SM1 as (_ & E & _). cbn in E. unfold buf_cap in *.
      split; [lia|]. split; [lia|congruence].
    + cbn [set_old set_free s_chg]. rewrite EC.
      eexists. exists w, []. split; [reflexivity|]. split; [rewrite app_nil_r; reflexivity|]. split; [exact NE|].
      split.
      { apply (at_orphan c _ d w [] (set_data b w 0) r); cbn; auto; try congruence; try (intros; discriminate).
        - unfold chunk_mem. cbn. split; [exact SM1|]. split.
          { specialize (MF (set_data b w 0) (bok_set _ _ _ _ BO)). exact MF. }
          split; [reflexivity|]. split; [congruence|]. split; [reflexivity|congruence]. }
      unfold buf_cap. cbn. destruct SM1 as (_ & E & _). cbn in E. unfold buf_cap in *.
      split; [lia|]. split; [lia|congruence].
  - (* part of it *)
    assert (n = buf_cap s1) as EN1 by lia. destruct HCAP as [H|[H H2]]; [lia|].
    eexists. exists (take n w), (drop n w). split; [reflexivity|]. split; [rewrite take_drop; reflexivity|].
    assert (LT : len (take n w) = n) by (apply len_take; lia).
    assert (LD : len (drop n w) = len w - n) by (apply len_drop; lia).
    split; [intros X; rewrite X in LT; change (len []) with 0 in LT; lia|].
    assert (ND : drop n w <> []) by (intros X; rewrite X in LD; change (len []) with 0 in LD; lia).
    split.
    { apply (at_orphan c _ d (take n w) (drop n w) (set_data b (take n w) 0) r); cbn; auto; try congruence.
      - unfold chunk_mem. cbn. split; [exact SM1|]. split.
        { specialize (MF (set_data b (take n w) 0) (bok_set _ _ _ _ BO)). exact MF. }
        split; [lia|]. split; [auto|]. split; [congruence|].
        intros _. split; [congruence|]. eexists. split; [reflexivity|]. cbn.
        destruct (HS1 o eq_refl) as (HI1 & _).
        split; [exact HI1|]. split; [rewrite ELV; exact HL|]. rewrite LT. split; [lia|].
        replace (o_off o + n - n) with (o_off o) by lia. rewrite HD. rewrite take_drop. reflexivity. }
    unfold buf_cap. cbn. destruct SM1 as (_ & E & _). cbn in E. unfold buf_cap in *.
    split; [lia|]. split; [lia|]. intros _. lia.
Qed.

(* ---- decoding a flat stream ---- *)

Inductive decs (c : cfg) : dst -> list Z -> (dst * list Z) + list msg -> Prop :=
  | decs_more d u : dec c d u = DMore -> decs c d u (inl (d, u))
  | decs_close d u o : dec c d u = DClose o -> decs c d u (inr o)
  | decs_step d u d1 r x : dec c d u = DDone d1 r -> decs c d1 r x -> decs c d u x.

Lemma decs_fun c d u x y : decs c d u x -> decs c d u y -> x = y.
Proof.
  intros H. revert y. induction H as [d u E|d u o E|d u d1 r x E H IH]; intros y Hy;
    inversion Hy as [? ? E'|? ? ? E'|? ? d' r' ? E' H']; subst; try congruence.
  rewrite E in E'. injection E' as <- <-. apply IH. assumption.
Qed.

Lemma dset_chunk_pos d z : 1 <= d_chunk d -> 1 <= d_chunk (dset_chunk d z).
Proof. intros H. unfold dset_chunk. destruct (z <? 1) eqn:E; [exact H|]. destruct (_ >? _); [exact H|]. cbn. lia. Qed.

Lemma dec_chunk c d u d1 r : dec c d u = DDone d1 r -> 1 <= d_chunk d -> 1 <= d_chunk d1.
Proof.
  unfold dec. destruct (parse_basic u) as [[[fmt csid] n]|] eqn:PB; [|congruence].
  destruct (csid >=? max_streams c); [discriminate|].
  destruct (parse_hdr _ _ _ _ (drop n u)) as [h|h last t3 n1] eqn:PH; [discriminate|].
  destruct (c_mlen h >? max_message c); [discriminate|].
  unfold dbody. cbv zeta.
  destruct (len u - (n + n1) <? _) eqn:E; [discriminate|].
  destruct (_ >? d_chunk d) eqn:E2; [intros [= <- _]; auto|].
  unfold ddeliver. cbv zeta. destruct (_ >? msg_max); [intros [= <- _]; auto|].
  destruct (accept c _); [|discriminate]. intros [= <- _] H.
  unfold dprotocol. cbn [m_type m_bufs]. destruct (_ =? msg_chunk_size); [|auto].
  match goal with |- context [match ?l with _ => _ end] => destruct l as [|[|x0 [|x1 [|x2 [|x3 rr]]]] l0]; auto end.
  apply dset_chunk_pos. exact H.
Qed.

Lemma decs_app c d u e d1 u1 x : 1 <= d_chunk d -> decs c d u (inl (d1, u1)) -> decs c d1 (u1 ++ e) x -> decs c d (u ++ e) x.
Proof.
  intros HC H. remember (inl (d1, u1)) as y eqn:EY. revert d1 u1 EY HC.
  induction H as [d u E|d u o E|d u d2 r y E H IH]; intros d1 u1 EY HC HX.
  - injection EY as <- <-. exact HX.
  - discriminate.
  - eapply decs_step; [rewrite dec_app by (try lia; rewrite E; discriminate); rewrite E; reflexivity|].
    eapply IH; eauto. eapply dec_chunk; eauto.
Qed.

Lemma decs_app_close c d u e o : 1 <= d_chunk d -> decs c d u (inr o) -> decs c d (u ++ e) (inr o).
Proof.
  intros HC H. remember (inr o) as y eqn:EY. revert o EY HC.
  induction H as [d u E|d u o E|d u d2 r y E H IH]; intros o1 EY HC.
  - discriminate.
  - injection EY as <-. apply decs_close. rewrite dec_app by (try lia; rewrite E; discriminate). rewrite E. reflexivity.
  - eapply decs_step; [rewrite dec_app by (try lia; rewrite E; discriminate); rewrite E; reflexivity|].
    eapply IH; [exact EY|]. eapply dec_chunk; eauto.
Qed.

Lemma decs_chunk c d u d1 u1 : decs c d u (inl (d1, u1)) -> 1 <= d_chunk d -> 1 <= d_chunk d1.
Proof.
  intros H. remember (inl (d1, u1)) as y eqn:EY. revert d1 u1 EY.
  induction H as [d u E|d u o E|d u d2 r y E H IH]; intros d1 u1 EY HC; try congruence.
  eapply IH; eauto. eapply dec_chunk; eauto.
Qed.

Lemma decs_bytes c d u d1 u1 : decs c d u (inl (d1, u1)) -> 1 <= d_chunk d -> Forall is_byte u ->
  Forall is_byte u1 /\ dec c d1 u1 = DMore.
Proof.
  intros H. remember (inl (d1, u1)) as y eqn:EY. revert d1 u1 EY.
  induction H as [d u E|d u o E|d u d2 r y E H IH]; intros d1 u1 EY HC HB; try congruence.
  - injection EY as <- <-. auto.
  - eapply IH; eauto; [eapply dec_chunk; eauto|].
    destruct (dec_rest c d u d2 r ltac:(lia) E) as (k & _ & ->).
    unfold drop. rewrite <- (firstn_skipn (Z.to_nat k) u) in HB. apply Forall_app in HB. tauto.
Qed.

(* ---- the loop ---- *)

(* between two reads: u are the bytes of an unfinished chunk *)
Definition waits (c : cfg) (s : sess) (d : dst) (u : list Z) : Prop :=
  (u = [] /\ mid c s d []) \/ at_ c s d u [].

Lemma drain_ok fuel : forall c s d w, mid c s d w -> (length w <= fuel)%nat -> Forall is_byte w -> 1 <= d_chunk d ->
  (exists s1 d1 u, drain fuel c s = Some (Go s1) /\ decs c d w (inl (d1, u)) /\ waits c s1 d1 u) \/
  (exists o, drain fuel c s = Some (Closed o) /\ decs c d w (inr o)).
Proof.
  induction fuel as [|fuel IH]; intros c s d w MD HL FB HC.
  - assert (w = []) as -> by (destruct w; [reflexivity|cbn in HL; lia]).
    left. exists s, d, []. pose proof MD as ((_ & _ & _ & _ & HO & _) & _). cbn [drain]. rewrite HO.
    split; [reflexivity|]. split; [|left; auto]. apply decs_more. reflexivity.
  - pose proof MD as ((SM & _ & _ & _ & HO & _) & _). cbn [drain]. rewrite HO.
    destruct w as [|w0 w].
    + left. exists s, d, []. split; [reflexivity|]. split; [|left; auto]. apply decs_more. reflexivity.
    + replace (len (w0 :: w) =? 0) with false by (rewrite len_cons; pose proof (len_nonneg _ w); lia).
      destruct (fill_old_ok c s d (w0 :: w) MD ltac:(discriminate)) as (s1 & u & v & E & EW & NU & A & HU & HCAP & HV).
      rewrite E. rewrite EW in *. apply Forall_app in FB. destruct FB as (FB1 & FB2).
      pose proof (process_ok c s1 d u v A NU FB1 HU) as PR.
      destruct (dec c d u) as [|o|d1 rest] eqn:ED.
      * assert (v = []) as ->.
        { destruct v as [|v0 v]; [reflexivity|]. exfalso. apply (dec_full c d u); [lia| |exact ED].
          rewrite HV by discriminate. lia. }
        destruct (PR eq_refl) as (s2 & E2 & A2 & O2). rewrite E2. left. exists s2, d, u.
        split; [destruct fuel; cbn [drain]; rewrite O2; reflexivity|]. rewrite app_nil_r.
        split; [apply decs_more; exact ED|]. right. exact A2.
      * rewrite PR. right. exists o. split; [reflexivity|]. apply decs_close.
        rewrite dec_app by (try lia; rewrite ED; discriminate). rewrite ED. reflexivity.
      * destruct PR as (s2 & E2 & MD2). rewrite E2.
        destruct (dec_rest c d u d1 rest ltac:(lia) ED) as (k & HK & ER).
        destruct (IH c s2 d1 (rest ++ v) MD2) as [(s3 & d3 & u3 & R1 & R2 & R3)|(o & R1 & R2)].
        { rewrite app_length in *. subst rest. unfold drop. rewrite skipn_length.
          unfold len in HK. lia. }
        { apply Forall_app. split; [|exact FB2]. subst rest. unfold drop.
          rewrite <- (firstn_skipn (Z.to_nat k) u) in FB1. apply Forall_app in FB1. tauto. }
        { eapply dec_chunk; eauto. }
        { left. exists s3, d3, u3. split; [exact R1|]. split; [|exact R3].
          eapply decs_step; [|exact R2]. rewrite dec_app by (try lia; rewrite ED; discriminate). rewrite ED. reflexivity. }
        { right. exists o. split; [exact R1|].
          eapply decs_step; [|exact R2]. rewrite dec_app by (try lia; rewrite ED; discriminate). rewrite ED. reflexivity. }
Qed.

(* ---- reads ---- *)

Lemma at_cur c s d u v : at_ c s d u v -> exists b, cur_buf s = Some b /\ bok s b /\ b_data b = u.
Proof.
  intros [b r CM ECS EL ET EF HR BD BP | sts fmt cs n b h EV L PB BP EL ET HE | sts fmt cs n n1 b h EV L PB PH BP HM].
  - exists b. split; [unfold cur_buf; rewrite ECS, EF; reflexivity|]. split; [|exact BD].
    destruct CM as (_ & (_ & M2 & _) & _). rewrite EF in M2. inversion M2; auto.
  - exists b. split; [eapply lk_cur; exact L|]. destruct L as (_ & _ & _ & _ & A & B & _). auto.
  - exists b. split; [eapply lk_cur; exact L|]. destruct L as (_ & _ & _ & _ & A & B & _). auto.
Qed.

Lemma at_old c s d u : at_ c s d u [] -> s_old s = None /\ s_osize s = 0 /\ In (s_pool s) (s_live s) /\
  1 <= d_chunk d /\ buf_cap s = d_chunk d + max_chunk_header /\ s_out s = d_out d.
Proof.
  intros A. assert (exists sts, chunk_mem c s sts d u []) as (sts & CM).
  { destruct A as [b r CM ECS EL ET EF HR BD BP | sts fmt cs n b h EV L PB BP EL ET HE | sts fmt cs n n1 b h EV L PB PH BP HM];
    [eexists; exact CM| |]; destruct L as (CM & _); eexists; exact CM. }
  destruct CM as ((_ & E1 & E2) & (_ & _ & M3 & _ & M5 & _) & HO & _ & HN & _).
  unfold buf_cap. repeat split; auto; try lia.
Qed.

Lemma waits_chunk c s d u : waits c s d u -> 1 <= d_chunk d.
Proof.
  intros [(_ & ((_ & E & _) & _ & _ & (_ & _ & _ & _ & M5 & _) & _) & _)|A].
  - lia.
  - apply at_old in A. tauto.
Qed.

Lemma waits_out c s d u : waits c s d u -> s_out s = d_out d.
Proof.
  intros [(_ & ((_ & _ & E) & _) & _)|A]; [exact E|]. apply at_old in A. tauto.
Qed.

Lemma ready_ok c s d u : waits c s d u -> exists s1, ready s = Some s1 /\ at_ c s1 d u [].
Proof.
  intros [(-> & MD)|A].
  - destruct (with_buf_free c s d [] MD) as (s1 & b & r & EW & EF & MD1 & BO & HA & HB & C1 & EO & EZ & EG & ELV & ECH & M).
    pose proof MD as (P & C0 & HC). pose proof P as (SM & EL & ET & M0 & HO & HN & HS & HF & HW).
    pose proof MD1 as (P1 & _ & HC1). pose proof P1 as (SM1 & EL1 & ET1 & M1 & HO1 & HN1 & HS1 & HF1 & HW1).
    cbn [set_free s_streams s_last s_t3 s_osize s_old s_free s_nid s_live s_chg] in *.
    assert (CG : s_chg s = false) by (destruct (s_chg s) eqn:E; [exfalso; apply HC; reflexivity|reflexivity]).
    unfold ready. rewrite EW.
    assert (ECB : cur_buf s1 = Some b) by (unfold cur_buf; rewrite C1, EF; reflexivity).
    destruct (s_old s1) as [o|] eqn:EOL.
    + rewrite ECB. eexists. split; [reflexivity|].
      assert (ESET : forall b1, set_cur_buf s1 b1 = set_free s1 (b1 :: r)).
      { intros b1. unfold set_cur_buf. rewrite C1, EF. reflexivity. }
      rewrite ESET.
      apply (at_orphan c _ d [] [] (set_data b [] 0) r); cbn; auto; try congruence.
      unfold chunk_mem. cbn. split; [exact SM1|]. split.
      { unfold mem in *. cbn in *. destruct M as (A1 & A2 & A3). split; [exact A1|]. split; [|exact A3].
        rewrite EF in A2. inversion A2 as [|? ? _ A4]; subst. constructor; [exact (bok_set _ _ _ _ BO)|exact A4]. }
      split; [reflexivity|]. split; [congruence|]. split; [reflexivity|congruence].
    + eexists. split; [reflexivity|].
      assert (OS : s_old s = None) by congruence. destruct (HN OS) as (_ & EFS).
      destruct (HB EFS) as (-> & BD & BP & _).
      apply (at_orphan c _ d [] [] b []); cbn; auto; try congruence.
      unfold chunk_mem. split; [exact SM1|]. split; [exact M|].
      change (len []) with 0. rewrite EZ, HO. change (len []) with 0. split; [reflexivity|].
      split; [congruence|]. split; [auto|congruence].
  - exists s. split; [|exact A]. destruct (at_cur c s d u [] A) as (b & EC & _).
    destruct (at_old c s d u A) as (EO & _). unfold ready.
    assert (with_buf s = s) as ->.
    { unfold with_buf, cur_buf in *. destruct (s_csid s =? 0).
      - destruct (s_free s); [discriminate|reflexivity].
      - destruct (snd (stream s (s_csid s))); [discriminate|reflexivity]. }
    rewrite EO. reflexivity.
Qed.

(* bytes are added to the buffer *)
Lemma at_more c s d u e b : at_ c s d u [] -> cur_buf s = Some b ->
  at_ c (set_cur_buf s (set_data b (b_data b ++ e) (b_pos b))) d (u ++ e) [].
Proof.
  intros A EC. assert (CMX : forall sts s1, chunk_mem c s sts d u [] -> mem c s1 sts ->
     s_chunk s1 = s_chunk s -> s_out s1 = s_out s -> s_osize s1 = s_osize s -> s_chg s1 = s_chg s -> s_old s1 = s_old s ->
     chunk_mem c s1 sts d (u ++ e) []).
  { intros sts s1 ((E1 & E2 & E3) & M & HO & HC & HN & _) M1 X1 X2 X3 X4 X5.
    unfold chunk_mem, same. rewrite X1, X2, X3, X4, X5. split; [auto|]. split; [exact M1|]. split; [exact HO|].
    split; [exact HC|]. split; [exact HN|]. intros X. congruence. }
  destruct A as [b0 r CM ECS EL ET EF HR BD BP | sts fmt cs n b0 h EV L PB BP EL ET HE | sts fmt cs n n1 b0 h EV L PB PH BP HM].
  - assert (b0 = b) as -> by (unfold cur_buf in EC; rewrite ECS, EF in EC; cbn in EC; congruence).
    unfold set_cur_buf. rewrite ECS, EF. cbn [Z.eqb tl].
    apply (at_orphan c _ d (u ++ e) [] (set_data b (b_data b ++ e) (b_pos b)) r); cbn; auto; [|rewrite BD; reflexivity].
    apply CMX; cbn; auto. destruct CM as (_ & M & _). unfold mem in *. cbn. destruct M as (A1 & A2 & A3).
    split; [exact A1|]. split; [|exact A3]. rewrite EF in A2. inversion A2 as [|? ? A5 A4]; subst.
    constructor; [exact A5|exact A4].
  - rewrite (lk_cur _ _ _ _ _ _ _ _ _ L) in EC. injection EC as <-.
    rewrite (lk_set_cur _ _ _ _ _ _ _ _ _ _ L).
    pose proof L as (CM & HFr & ECS & HCS & BO & BD & ESS).
    apply (at_head c _ d (u ++ e) [] sts fmt cs n (set_data b0 (b_data b0 ++ e) (b_pos b0)) h); auto.
    + unfold lk. cbn [set_streams s_chg s_free s_csid s_streams]. split.
      { apply CMX; auto. destruct CM as (_ & M & _). exact M. }
      repeat split; auto; try apply HCS; try apply BO. cbn. rewrite BD. reflexivity.
    + apply parse_basic_app. exact PB.
    + intros x. rewrite <- app_assoc. apply HE.
  - rewrite (lk_cur _ _ _ _ _ _ _ _ _ L) in EC. injection EC as <-.
    rewrite (lk_set_cur _ _ _ _ _ _ _ _ _ _ L).
    pose proof L as (CM & HFr & ECS & HCS & BO & BD & ESS).
    pose proof (parse_basic_size _ _ _ _ PB) as (N1 & N2).
    apply (at_body c _ d (u ++ e) [] sts fmt cs n n1 (set_data b0 (b_data b0 ++ e) (b_pos b0)) h); auto.
    + unfold lk. cbn [set_streams s_chg s_free s_csid s_streams]. split.
      { apply CMX; auto. destruct CM as (_ & M & _). exact M. }
      repeat split; auto; try apply HCS; try apply BO. cbn. rewrite BD. reflexivity.
    + apply parse_basic_app. exact PB.
    + rewrite drop_app by lia. cbn. apply parse_hdr_app. exact PH.
Qed.

Lemma ready_at c s d u : at_ c s d u [] -> ready s = Some s.
Proof.
  intros A. destruct (at_cur c s d u [] A) as (b & EC & _).
  destruct (at_old c s d u A) as (EO & _). unfold ready.
  assert (with_buf s = s) as ->.
  { unfold with_buf, cur_buf in *. destruct (s_csid s =? 0).
    - destruct (s_free s); [discriminate|reflexivity].
    - destruct (snd (stream s (s_csid s))); [discriminate|reflexivity]. }
  rewrite EO. reflexivity.
Qed.

Lemma recv_ok c s d u e : at_ c s d u [] -> Forall is_byte u -> Forall is_byte e -> 0 < len e <= room s ->
  (exists s1 d1 u1, recv_read c s e = Some (Go s1) /\ decs c d (u ++ e) (inl (d1, u1)) /\ waits c s1 d1 u1) \/
  (exists o, recv_read c s e = Some (Closed o) /\ decs c d (u ++ e) (inr o)).
Proof.
  intros A FU FE HR. unfold recv_read. rewrite (ready_at c s d u A).
  destruct (at_cur c s d u [] A) as (b & EC & BO & BD). rewrite EC.
  destruct (at_old c s d u A) as (EO & EZ & HL & HC & HCAP & _).
  pose proof BO as (B1 & B2 & B3).
  rewrite B1, (proj2 (is_live_in s (s_pool s)) HL).
  replace (0 <? len e) with true by lia. replace (len e <=? room s) with true by lia. cbn [andb].
  pose proof (at_more c s d u e b A EC) as A2.
  set (s2 := set_cur_buf s (set_data b (b_data b ++ e) (b_pos b))) in *.
  assert (NE : u ++ e <> []).
  { intros X. apply app_eq_nil in X. destruct X as (_ & ->). change (len []) with 0 in HR. lia. }
  assert (FB : Forall is_byte (u ++ e)) by (apply Forall_app; auto).
  destruct (at_old c s2 d (u ++ e) A2) as (_ & _ & _ & _ & HCAP2 & _).
  assert (HU : len (u ++ e) <= buf_cap s2).
  { unfold room in HR. rewrite EC, BD, B2 in HR. rewrite len_app. lia. }
  pose proof (process_ok c s2 d (u ++ e) [] A2 NE FB HU) as PR.
  destruct (dec c d (u ++ e)) as [|o|d1 rest] eqn:ED.
  - destruct (PR eq_refl) as (s3 & E3 & A3 & O3). rewrite E3, O3. left. exists s3, d, (u ++ e).
    split; [cbn [drain Z.to_nat]; rewrite O3; reflexivity|]. split; [apply decs_more; exact ED|]. right. exact A3.
  - rewrite PR. right. exists o. split; [reflexivity|]. apply decs_close. exact ED.
  - destruct PR as (s3 & E3 & MD). rewrite E3. rewrite app_nil_r in MD.
    destruct (dec_rest c d (u ++ e) d1 rest ltac:(lia) ED) as (k & HK & ER).
    destruct (drain_ok (S (Z.to_nat (s_osize s3))) c s3 d1 rest MD) as [(s4 & d4 & u4 & R1 & R2 & R3)|(o & R1 & R2)].
    + pose proof MD as ((_ & _ & _ & _ & HO & _) & _). rewrite HO. unfold len. lia.
    + subst rest. unfold drop. rewrite <- (firstn_skipn (Z.to_nat k) (u ++ e)) in FB. apply Forall_app in FB. tauto.
    + eapply dec_chunk; eauto.
    + left. exists s4, d4, u4. split; [exact R1|]. split; [|exact R3]. eapply decs_step; eauto.
    + right. exists o. split; [exact R1|]. eapply decs_step; eauto.
Qed.

Lemma room_pos c s d u : at_ c s d u [] -> dec c d u = DMore -> 1 <= room s.
Proof.
  intros A ED. destruct (at_cur c s d u [] A) as (b & EC & BO & BD).
  destruct (at_old c s d u A) as (_ & _ & _ & HC & HCAP & _).
  pose proof BO as (B1 & B2 & B3).
  unfold room. rewrite EC, BD, B2.
  destruct (Z_le_gt_dec (d_chunk d + max_chunk_header) (len u)) as [X|X]; [|lia].
  exfalso. exact (dec_full c d u ltac:(lia) X ED).
Qed.

(* a whole history *)
Lemma run_ok ks : forall c s d u net, waits c s d u -> dec c d u = DMore -> Forall is_byte u -> Forall is_byte net ->
  (exists s1 d1 u1 p rest, run c s net ks = Some (Go s1, rest) /\ net = p ++ rest /\
     decs c d (u ++ p) (inl (d1, u1)) /\ waits c s1 d1 u1) \/
  (exists o p rest, run c s net ks = Some (Closed o, rest) /\ net = p ++ rest /\ decs c d (u ++ p) (inr o)).
Proof.
  induction ks as [|k ks IH]; intros c s d u net W ED FU FN.
  { left. exists s, d, u, [], net. cbn [run]. rewrite app_nil_r. repeat split; auto. apply decs_more. exact ED. }
  cbn [run]. unfold read_net. destruct (ready_ok c s d u W) as (s1 & ER & A1). rewrite ER.
  destruct ((k <=? 0) || (len net =? 0)) eqn:EK.
  { apply IH; auto. right. exact A1. }
  apply orb_false_iff in EK. destruct EK as (EK1 & EK2).
  pose proof (room_pos c s1 d u A1 ED) as RP. pose proof (len_nonneg _ net) as LN.
  set (n := Z.min k (Z.min (room s1) (len net))).
  assert (HN : 1 <= n <= room s1 /\ n <= len net) by lia.
  assert (LT : len (take n net) = n) by (apply len_take; lia).
  pose proof FN as FN0. rewrite <- (take_drop _ n net) in FN0. apply Forall_app in FN0. destruct FN0 as (FN1 & FN2).
  pose proof (waits_chunk c s d u W) as HC.
  destruct (recv_ok c s1 d u (take n net) A1 FU FN1 ltac:(lia)) as [(s2 & d2 & u2 & R1 & R2 & R3)|(o & R1 & R2)].
  - rewrite R1. destruct (decs_bytes c d _ d2 u2 R2 HC) as (FU2 & ED2); [apply Forall_app; auto|].
    destruct (IH c s2 d2 u2 (drop n net) R3 ED2 FU2 FN2) as [(s3 & d3 & u3 & p & rest & Q1 & Q2 & Q3 & Q4)|(o & p & rest & Q1 & Q2 & Q3)].
    + left. exists s3, d3, u3, (take n net ++ p), rest. split; [exact Q1|]. split.
      { rewrite <- app_assoc, <- Q2. symmetry. apply take_drop. }
      split; [|exact Q4]. rewrite app_assoc. eapply decs_app; eauto.
    + right. exists o, (take n net ++ p), rest. split; [exact Q1|]. split.
      { rewrite <- app_assoc, <- Q2. symmetry. apply take_drop. }
      rewrite app_assoc. eapply decs_app; eauto.
  - rewrite R1. right. exists o, (take n net), (drop n net). split; [reflexivity|]. split; [symmetry; apply take_drop|exact R2].
Qed.

Definition dinit (c : cfg) (t3 : t3_mode) : dst :=
  Dst (repeat (chdr0, []) (Z.to_nat (max_streams c))) 0 t3 default_chunk_size [].

Lemma init_waits c t3 : 0 <= max_streams c -> waits c (init c t3) (dinit c t3) [].
Proof.
  intros HM. left. split; [reflexivity|]. split; [|split; [reflexivity|discriminate]].
  unfold premid, same, mem, init, dinit. cbn.
  split. { split; [|auto]. generalize (Z.to_nat (max_streams c)) as k. induction k as [|k IH]; cbn; [reflexivity|]. f_equal. exact IH. }
  do 2 (split; [reflexivity|]). split.
  { split. { generalize (Z.to_nat (max_streams c)) as k. induction k as [|k IH]; cbn; constructor; [constructor|exact IH]. }
    split; [constructor|]. split; [left; reflexivity|]. split; [constructor; [lia|constructor]|].
    split; [unfold default_chunk_size; lia|]. split; [|reflexivity].
    unfold len. rewrite repeat_length. lia. }
  split; [reflexivity|]. split; [auto|]. split; [discriminate|]. split; [discriminate|].
  intros _. unfold buf_cap, default_chunk_size, max_chunk_header. cbn. change (len []) with 0. lia.
Qed.

Lemma run_init c t3 net ks : 0 <= max_streams c -> Forall is_byte net ->
  (exists s1 d1 u1 p rest, run c (init c t3) net ks = Some (Go s1, rest) /\ net = p ++ rest /\
     decs c (dinit c t3) p (inl (d1, u1)) /\ waits c s1 d1 u1) \/
  (exists o p rest, run c (init c t3) net ks = Some (Closed o, rest) /\ net = p ++ rest /\ decs c (dinit c t3) p (inr o)).
Proof.
  intros HM FN. exact (run_ok ks c (init c t3) (dinit c t3) [] net (init_waits c t3 HM) eq_refl (Forall_nil _) FN).
Qed.
