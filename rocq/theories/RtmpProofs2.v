(* The chunk reader computes what the decoder of a flat stream computes,
   however the bytes arrive, and never touches memory that is gone. *)

From Coq Require Import List ZArith Lia Bool Arith.
From Coq Require Import ZifyBool ZifyNat.
From Verif Require Import Lists Bytes RtmpModel RtmpProofs.
Import ListNotations.
Open Scope Z_scope.

(* ---- the invariant ---- *)

Definition absst (x : chdr * list buf) : chdr * list (list Z) := (fst x, map payload (snd x)).

Definition bufok (pool : nat) (cap : Z) (nid : nat) (b : buf) : Prop :=
  b_pool b = pool /\ b_cap b = cap /\ (b_id b < nid)%nat.

Definition bok (s : sess) (b : buf) : Prop := bufok (s_pool s) (buf_cap s) (s_nid s) b.

Definition mem (c : cfg) (s : sess) (sts : list (chdr * list buf)) : Prop :=
  Forall (fun x => Forall (bok s) (snd x)) sts /\
  Forall (bok s) (s_free s) /\
  In (s_pool s) (s_live s) /\ Forall (fun p => (p < s_npool s)%nat) (s_live s) /\
  1 <= s_chunk s /\ len sts = max_streams c /\
  match s_oldpool s with
  | Some p => s_chg s = true /\ In p (s_live s) /\ p <> s_pool s
  | None => s_chg s = false
  end.

(* the decoder's state, apart from the unread bytes *)
Definition same (s : sess) (sts : list (chdr * list buf)) (d : dst) : Prop :=
  map absst sts = d_streams d /\ s_chunk s = d_chunk d /\ s_out s = d_out d.

(* between two chunks; w are the unread bytes in memory *)
Definition premid (c : cfg) (s : sess) (d : dst) (w : list Z) : Prop :=
  same s (s_streams s) d /\ s_last s = d_last d /\ s_t3 s = d_t3 d /\
  mem c s (s_streams s) /\ s_osize s = len w /\
  (s_old s = None -> w = [] /\ s_free s = []) /\
  (forall o, s_old s = Some o -> (o_id o < s_nid s)%nat /\
     (w <> [] -> In (o_pool o) (s_live s) /\ 0 <= o_off o <= len (o_data o) /\ drop (o_off o) (o_data o) = w)) /\
  (s_chg s = true -> s_free s = []) /\
  (s_chg s = false -> len w <= buf_cap s).

Definition mid (c : cfg) (s : sess) (d : dst) (w : list Z) : Prop :=
  premid c s d w /\ s_csid s = 0 /\ (s_chg s = true -> w <> []).

(* while a chunk is read: u are its bytes in the buffer, v the unread bytes
   that did not fit into it *)
Definition chunk_mem (c : cfg) (s : sess) (sts : list (chdr * list buf)) (d : dst) (u v : list Z) : Prop :=
  same s sts d /\ mem c s sts /\ s_osize s = len v /\
  (s_chg s = true -> v <> []) /\
  (v = [] -> s_old s = None) /\
  (v <> [] -> s_chg s = true /\ exists o, s_old s = Some o /\ (o_id o < s_nid s)%nat /\
     In (o_pool o) (s_live s) /\ len u <= o_off o <= len (o_data o) /\
     drop (o_off o - len u) (o_data o) = u ++ v).

(* linked to its stream *)
Definition lk (c : cfg) (s : sess) (sts : list (chdr * list buf)) (d : dst) (u v : list Z)
    (cs : Z) (b : buf) (h : chdr) : Prop :=
  chunk_mem c s sts d u v /\ (s_chg s = true -> s_free s = []) /\
  s_csid s = cs /\ 2 <= cs < max_streams c /\ bok s b /\ b_data b = u /\
  s_streams s = set_nth sts (Z.to_nat cs) (h, snd (nth (Z.to_nat cs) sts (chdr0, [])) ++ [b]).

Inductive at_ (c : cfg) (s : sess) (d : dst) (u v : list Z) : Prop :=
  | at_orphan b r :
      chunk_mem c s (s_streams s) d u v -> s_csid s = 0 -> s_last s = d_last d -> s_t3 s = d_t3 d ->
      s_free s = b :: r -> (s_chg s = true -> r = []) -> b_data b = u -> b_pos b = 0 -> at_ c s d u v
  | at_head sts fmt cs n b h :
      v = [] -> lk c s sts d u v cs b h -> parse_basic u = Some (fmt, cs, n) -> b_pos b = 0 ->
      s_last s = d_last d -> s_t3 s = d_t3 d ->
      (forall e, parse_hdr (d_t3 d) (d_last d) h fmt (drop n (u ++ e)) =
                 parse_hdr (d_t3 d) (d_last d) (fst (dstream d cs)) fmt (drop n (u ++ e))) -> at_ c s d u v
  | at_body sts fmt cs n n1 b h :
      v = [] -> lk c s sts d u v cs b h -> parse_basic u = Some (fmt, cs, n) ->
      parse_hdr (d_t3 d) (d_last d) (fst (dstream d cs)) fmt (drop n u) = HDone h (s_last s) (s_t3 s) n1 ->
      b_pos b = n + n1 -> c_mlen h <= max_message c -> at_ c s d u v.

(* ---- small facts ---- *)

Lemma is_live_in s p : is_live s p = true <-> In p (s_live s).
Proof.
  unfold is_live. rewrite existsb_exists. split.
  - intros (x & H1 & H2). apply Nat.eqb_eq in H2. subst. exact H1.
  - intros H. exists p. split; [exact H|apply Nat.eqb_refl].
Qed.

Lemma same_nth s sts d cs : same s sts d ->
  fst (dstream d cs) = fst (nth (Z.to_nat cs) sts (chdr0, [])) /\
  snd (dstream d cs) = map payload (snd (nth (Z.to_nat cs) sts (chdr0, []))).
Proof.
  intros (E & _). unfold dstream. rewrite <- E.
  change (chdr0, []) with (absst (chdr0, [])) at 1 3. rewrite map_nth. split; reflexivity.
Qed.

Lemma map_set_nth' {A B} (f : A -> B) l i x : map f (set_nth l i x) = set_nth (map f l) i (f x).
Proof. apply map_set_nth. Qed.

Lemma len_set_nth A (l : list A) i x : len (set_nth l i x) = len l.
Proof. unfold len. rewrite set_nth_length. reflexivity. Qed.

Lemma payload_set b d p : payload (set_data b d p) = drop p d.
Proof. reflexivity. Qed.

Lemma lk_idx c s sts d u v cs b h : lk c s sts d u v cs b h -> (Z.to_nat cs < length sts)%nat.
Proof.
  intros ((_ & M & _) & _ & _ & H & _). destruct M as (_ & _ & _ & _ & _ & HL & _). unfold len in HL. lia.
Qed.

Lemma lk_stream c s sts d u v cs b h : lk c s sts d u v cs b h ->
  stream s cs = (h, snd (nth (Z.to_nat cs) sts (chdr0, [])) ++ [b]).
Proof.
  intros L. pose proof (lk_idx _ _ _ _ _ _ _ _ _ L) as HI. destruct L as (_ & _ & _ & _ & _ & _ & E).
  unfold stream. rewrite E. apply nth_set_nth_eq. exact HI.
Qed.

Lemma lk_cur c s sts d u v cs b h : lk c s sts d u v cs b h -> cur_buf s = Some b.
Proof.
  intros L. pose proof (lk_stream _ _ _ _ _ _ _ _ _ L) as E.
  destruct L as (_ & _ & C & H & _). unfold cur_buf. rewrite C.
  replace (cs =? 0) with false by lia. rewrite E. cbn [snd]. rewrite rev_snoc. reflexivity.
Qed.

Lemma lk_set_cur c s sts d u v cs b h b1 : lk c s sts d u v cs b h ->
  set_cur_buf s b1 = set_streams s (set_nth sts (Z.to_nat cs) (h, snd (nth (Z.to_nat cs) sts (chdr0, [])) ++ [b1])).
Proof.
  intros L. pose proof (lk_stream _ _ _ _ _ _ _ _ _ L) as E.
  destruct L as (_ & _ & C & H & _ & _ & ES). unfold set_cur_buf. rewrite C.
  replace (cs =? 0) with false by lia. rewrite E. cbn [fst snd]. rewrite removelast_snoc.
  unfold set_stream. rewrite ES. rewrite set_nth_twice. reflexivity.
Qed.

Lemma remove_in (p q : nat) l : In q l -> q <> p -> In q (remove Nat.eq_dec p l).
Proof. intros H N. apply in_in_remove; auto. Qed.

Lemma Forall_remove (P : nat -> Prop) p l : Forall P l -> Forall P (remove Nat.eq_dec p l).
Proof.
  intros F. rewrite Forall_forall in *. intros x H. apply in_remove in H. apply F. tauto.
Qed.

(* ---- chunk size changes ---- *)

Lemma mk_bufs_payload id pool cap l : map payload (mk_bufs id pool cap l) = l.
Proof. revert id. induction l as [|x l IH]; intros id; cbn; f_equal; auto. Qed.

Lemma mk_bufs_ok id pool cap l nid : (id + length l <= nid)%nat -> Forall (bufok pool cap nid) (mk_bufs id pool cap l).
Proof.
  revert id. induction l as [|x l IH]; intros id H; cbn [mk_bufs]; constructor.
  - repeat split; cbn [b_id]; cbn [length] in H; lia.
  - apply IH. cbn [length] in H. lia.
Qed.

Lemma bufok_mono pool cap n1 n2 b : (n1 <= n2)%nat -> bufok pool cap n1 b -> bufok pool cap n2 b.
Proof. intros H (A & B & C). repeat split; auto. lia. Qed.

Lemma repack_all_ok live id pool cap l : 1 <= cap -> Forall (fun x => live (snd x) = true) l ->
  exists r id1, repack_all live id pool cap l = Some (r, id1) /\ (id <= id1)%nat /\
    map absst r = map (fun x => (fst x, repack_get cap (snd x))) (map absst l) /\
    Forall (fun x => Forall (bufok pool cap id1) (snd x)) r.
Proof.
  intros HC. revert id. induction l as [|[h bs] l IH]; intros id F; cbn [repack_all].
  - exists [], id. repeat split; auto.
  - inversion F as [|? ? F1 F2]; subst. cbn [snd] in F1. rewrite F1.
    rewrite (repack_get_ok cap (map payload bs) HC).
    destruct (IH (id + length (repack_get cap (map payload bs)))%nat F2) as (r & id1 & E & H1 & H2 & H3).
    rewrite E. do 2 eexists. split; [reflexivity|]. split; [lia|]. split.
    + cbn [map]. rewrite H2. unfold absst at 1 3. cbn [fst snd]. rewrite mk_bufs_payload. reflexivity.
    + constructor; [|exact H3]. cbn [snd]. apply mk_bufs_ok. lia.
Qed.

Lemma bufs_live_ok s l : Forall (bok s) l -> In (s_pool s) (s_live s) -> bufs_live s l = true.
Proof.
  intros F H. unfold bufs_live. apply forallb_forall. intros b Hb.
  rewrite Forall_forall in F. destruct (F b Hb) as (E & _). rewrite E. apply is_live_in. exact H.
Qed.

Lemma set_chunk_size_ok c s d w size : premid c s d w ->
  exists s1, set_chunk_size s size = Some s1 /\ premid c s1 (dset_chunk d size) w /\
    (s_chg s1 = false -> s1 = s) /\ s_csid s1 = s_csid s /\
    (forall p, In p (s_live s) -> In p (s_live s1)) /\ (s_chg s = true -> s_chg s1 = true).
Proof.
  intros P. pose proof P as ((ES & EC & EO) & EL & ET & M & HO & HN & HS & HF & HW).
  unfold set_chunk_size, dset_chunk.
  destruct (size <? 1) eqn:E1; [exists s; auto 10|].
  destruct (size >? max_chunk_size) eqn:E2; [exists s; auto 10|].
  destruct M as (M1 & M2 & M3 & M4 & M5 & M6 & M7).
  cbv zeta. cbn [s_nid set_free set_chunk set_ids s_streams s_npool set_pools].
  match goal with |- context [repack_all ?l ?i ?p ?k ?st] =>
    destruct (repack_all_ok l i p k st) as (r & id1 & E & H1 & H2 & H3) end.
  { unfold buf_cap, max_chunk_header. cbn. lia. }
  { rewrite Forall_forall in *. intros x Hx. unfold bufs_live. apply forallb_forall. intros b Hb.
    specialize (M1 x Hx). rewrite Forall_forall in M1. destruct (M1 b Hb) as (EP & _). rewrite EP.
    apply is_live_in. cbn. right. exact M3. }
  rewrite E. eexists. split; [reflexivity|]. cbn [set_streams set_ids set_free set_chunk set_pools s_chg s_csid s_live].
  split; [|repeat split; auto; try discriminate; intros p Hp; right; exact Hp].
  unfold premid, same, mem. cbn.
  split; [split; [rewrite H2, ES; reflexivity|auto]|].
  split; [exact EL|]. split; [exact ET|].
  split.
  { split; [exact H3|]. split; [constructor|]. split; [left; reflexivity|].
    split; [constructor; [lia|]; eapply Forall_impl; [|exact M4]; cbn; intros; lia|].
    split; [lia|]. split.
    { assert (length r = length (s_streams s)) as EE.
      { transitivity (length (map absst r)); [rewrite map_length; reflexivity|].
        rewrite H2, !map_length. reflexivity. }
      unfold len in *. lia. }
    split; [reflexivity|]. split; [right; exact M3|].
    rewrite Forall_forall in M4. specialize (M4 _ M3). lia. }
  split; [exact HO|]. split; [intros E3; split; [apply HN, E3|reflexivity]|].
  split; [|split; [reflexivity|discriminate]].
  intros o Ho. destruct (HS o Ho) as (A & B). split; [lia|].
  intros Hw. destruct (B Hw) as (B1 & B2). split; [right; exact B1|exact B2].
Qed.

Lemma finalize_ok c s d : premid c s d [] -> s_chg s = true ->
  exists s1, finalize_set_chunk_size s = Some s1 /\ premid c s1 d [] /\ s_chg s1 = false /\ s_csid s1 = s_csid s.
Proof.
  intros ((ES & EC & EO) & EL & ET & M & HO & HN & HS & HF & HW) HC.
  destruct M as (M1 & M2 & M3 & M4 & M5 & M6 & M7).
  unfold finalize_set_chunk_size. destruct (s_oldpool s) as [p|] eqn:EP; [|congruence].
  destruct M7 as (_ & HP & NP). rewrite HC. unfold destroy_pool.
  rewrite (proj2 (is_live_in s p) HP). eexists. split; [reflexivity|].
  cbn [set_pools s_chg s_csid]. split; [|auto].
  unfold premid, same, mem. cbn.
  split; [auto|]. split; [auto|]. split; [auto|]. split.
  { split; [exact M1|]. split; [exact M2|]. split; [apply remove_in; auto|].
    split; [apply Forall_remove; exact M4|]. auto. }
  split; [exact HO|]. split; [exact HN|]. split.
  { intros o Ho. destruct (HS o Ho) as (A & B). split; [exact A|]. congruence. }
  split; [intros; discriminate|]. intros _. change (len []) with 0. unfold buf_cap, max_chunk_header. cbn. lia.
Qed.

Lemma protocol_ok c s d w m : premid c s d w ->
  exists s1, protocol_message s m = Some s1 /\ premid c s1 (dprotocol d m) w /\
    (s_chg s1 = false -> s1 = s) /\ s_csid s1 = s_csid s /\
    (forall p, In p (s_live s) -> In p (s_live s1)) /\ (s_chg s = true -> s_chg s1 = true).
Proof.
  intros P. unfold protocol_message, dprotocol.
  destruct (m_type m =? msg_chunk_size); [|exists s; auto 10].
  destruct (m_bufs m) as [|[|x0 [|x1 [|x2 [|x3 r]]]] l]; try (exists s; auto 10; fail).
  apply set_chunk_size_ok. exact P.
Qed.

Lemma premid_out c s d w o : premid c s d w ->
  premid c (set_out s o) (Dst (d_streams d) (d_last d) (d_t3 d) (d_chunk d) o) w.
Proof.
  intros ((ES & EC & EO) & R). unfold premid, same, mem in *. cbn. tauto.
Qed.

Lemma premid_csid c s d w x : premid c s d w -> premid c (set_csid s x) d w.
Proof. intros P. unfold premid, same, mem in *. cbn. exact P. Qed.

(* what follows the handlers *)
Lemma after_ok c s d w bs : premid c s d w ->
  (s_chg s = false -> Forall (bok s) bs) -> s_old s <> None ->
  exists s1,
    (if s_chg s then
       if s_osize s =? 0 then
         match finalize_set_chunk_size s with
         | Some s2 => Some (Go (set_csid s2 0))
         | None => None
         end
       else Some (Go (set_csid s 0))
     else Some (Go (set_csid (set_free s (bs ++ s_free s)) 0))) = Some (Go s1) /\ mid c s1 d w.
Proof.
  intros P HB HN. pose proof P as (_ & _ & _ & _ & HO & _).
  destruct (s_chg s) eqn:EC.
  - destruct (s_osize s =? 0) eqn:E0.
    + assert (w = []) as -> by (apply len_0; lia).
      destruct (finalize_ok c s d P EC) as (s1 & E & P1 & C1 & _). rewrite E. eexists. split; [reflexivity|].
      split; [apply premid_csid; exact P1|]. cbn. split; [reflexivity|congruence].
    + eexists. split; [reflexivity|]. split; [apply premid_csid; exact P|]. cbn. split; [reflexivity|].
      intros _ ->. change (len []) with 0 in HO. lia.
  - eexists. split; [reflexivity|]. split; [|cbn; split; [reflexivity|congruence]].
    apply premid_csid. destruct P as ((ES & EC' & EO) & EL & ET & M & _ & HN' & HS & HF & HW).
    destruct M as (M1 & M2 & M3 & M4 & M5 & M6 & M7).
    unfold premid, same, mem. cbn. repeat (split; [solve [auto]|]).
    split. { repeat (split; [solve [auto]|]). split; [apply Forall_app; split; [apply HB; reflexivity|exact M2]|auto]. }
    split; [exact HO|]. split; [intros X; congruence|]. split; [exact HS|]. split; [congruence|exact HW].
Qed.

Lemma deliver_ok c s d w cs h bs rest : premid c s d w -> Forall (bok s) bs -> s_old s <> None ->
  match ddeliver c d cs h (map payload bs) rest with
  | DMore => False
  | DClose o => deliver c s cs h bs = Some (Closed o)
  | DDone d1 _ => exists s1, deliver c s cs h bs = Some (Go s1) /\ mid c s1 d1 w
  end.
Proof.
  intros P HB HN. unfold ddeliver, deliver. cbv zeta.
  assert (bufs_live s bs = true) as ->.
  { destruct P as (_ & _ & _ & M & _). destruct M as (_ & _ & M3 & _). apply bufs_live_ok; auto. }
  destruct (c_type h >? msg_max).
  { apply after_ok; auto. }
  pose proof P as ((_ & _ & EO) & _). rewrite EO.
  set (m := Msg cs (c_ts h) (c_mlen h) (c_type h) (c_msid h) (map payload bs)).
  destruct (protocol_ok c _ _ w m (premid_out c s d w (d_out d ++ [m]) P)) as (s1 & E & P1 & C1 & K1 & L1 & G1).
  rewrite E. pose proof P1 as ((_ & _ & EO1) & _). rewrite EO1.
  destruct (accept c _); [|reflexivity].
  apply after_ok; [exact P1| |].
  - intros H. rewrite (C1 H). exact HB.
  - intros X. destruct (s_chg s1) eqn:EC.
    + revert E. unfold protocol_message. destruct (m_type m =? msg_chunk_size); [|intros [= <-]; auto].
      destruct (m_bufs m) as [|[|x0 [|x1 [|x2 [|x3 r]]]] l]; try (intros [= <-]; auto; fail).
      unfold set_chunk_size. destruct (_ <? 1); [intros [= <-]; auto|]. destruct (_ >? max_chunk_size); [intros [= <-]; auto|].
      cbv zeta. destruct (repack_all _ _ _ _ _) as [[r1 i1]|]; [|discriminate]. intros [= <-]. apply HN. exact X.
    + rewrite (C1 eq_refl) in X. exact (HN X).
Qed.

(* ---- the body of a chunk ---- *)

Lemma bok_set s b d p : bok s b -> bok s (set_data b d p).
Proof. intros (A & B & C). repeat split; auto. Qed.

Lemma u32_small x : 0 <= x < 4294967296 -> u32 x = x.
Proof. intros H. unfold u32. change (2 ^ 32) with 4294967296. apply Z.mod_small. exact H. Qed.

(* the unread bytes after the chunk *)
Lemma push_back_ok c s sts d u v cs b h k s1 sts1 d1 : lk c s sts d u v cs b h -> 0 <= k <= len u ->
  s1 = set_streams s sts1 -> map absst sts1 = d_streams d1 -> d_last d1 = s_last s -> d_t3 d1 = s_t3 s ->
  d_chunk d1 = s_chunk s -> d_out d1 = s_out s ->
  Forall (fun x => Forall (bok s) (snd x)) sts1 -> len sts1 = max_streams c -> len u <= buf_cap s ->
  exists s2, push_back s1 b k (len u - k) = Some s2 /\ premid c s2 d1 (drop k u ++ v) /\
    s_old s2 <> None /\ (s_chg s2 = true -> drop k u ++ v <> []) /\ (forall x, bok s x -> bok s2 x).
Proof.
  intros L HK -> ES EL ET EC EO HF HL HU.
  destruct L as ((_ & M & HO & HC & HN & HS) & HFr & _ & _ & BO & BD & _).
  destruct M as (M1 & M2 & M3 & M4 & M5 & M6 & M7).
  unfold push_back. cbn [set_streams s_osize s_old]. rewrite HO.
  destruct v as [|v0 v].
  - change (len []) with 0. cbn [Z.eqb]. eexists. split; [reflexivity|].
    rewrite app_nil_r. destruct BO as (B1 & B2 & B3).
    split; [|split; [cbn; discriminate|split; [cbn; intros X; exfalso; apply (HC X); reflexivity|]]].
    2:{ intros x Hx. exact Hx. }
    unfold premid, same, mem. cbn. do 3 (split; [solve [auto]|]). split; [solve [auto 12]|].
    split; [rewrite len_drop by lia; lia|].
    split; [discriminate|]. split.
    { intros o [= <-]. cbn. split; [exact B3|]. intros _. rewrite B1, BD.
      split; [exact M3|]. split; [lia|reflexivity]. }
    split; [intros X; exfalso; apply (HC X); reflexivity|].
    intros _. rewrite len_drop by lia. unfold buf_cap in *. cbn. lia.
  - destruct (HS ltac:(discriminate)) as (HC1 & o & E1 & E2 & E3 & E4 & E5).
    replace (len (v0 :: v) =? 0) with false by (rewrite len_cons; pose proof (len_nonneg _ v); lia).
    rewrite E1. replace (len u - k <=? o_off o) with true by lia.
    eexists. split; [reflexivity|].
    split; [|split; [cbn; discriminate|split; [|intros x Hx; exact Hx]]].
    2:{ intros _ X. apply app_eq_nil in X. destruct X; discriminate. }
    unfold premid, same, mem. cbn [set_old set_streams s_streams s_last s_t3 s_chunk s_out s_free s_live s_pool s_npool
      s_nid s_osize s_old s_chg s_oldpool]. do 3 (split; [solve [auto]|]). split; [solve [auto 12]|].
    split; [rewrite len_app, len_drop by lia; lia|].
    split; [discriminate|]. split.
    { intros o' [= <-]. cbn [o_id o_pool o_off o_data]. split; [exact E2|]. intros _.
      split; [exact E3|]. split; [lia|].
      replace (o_off o - (len u - k)) with (k + (o_off o - len u)) by lia.
      rewrite <- drop_drop by lia. rewrite E5. apply drop_app. lia. }
    split; [exact HFr|]. intros X. congruence.
Qed.

Lemma body_ok c s sts d u v cs b h n : lk c s sts d u v cs b h -> b_pos b = n -> 0 <= n <= len u ->
  len u <= buf_cap s ->
  match dbody c d cs h (s_last s) (s_t3 s) n u with
  | DMore => chunk_body c s = Some (Go s)
  | DClose o => chunk_body c s = Some (Closed o)
  | DDone d1 rest => exists s1, chunk_body c s = Some (Go s1) /\ mid c s1 d1 (rest ++ v)
  end.
Proof.
  intros L HP HN HU. pose proof (lk_cur _ _ _ _ _ _ _ _ _ L) as ECUR.
  pose proof (lk_stream _ _ _ _ _ _ _ _ _ L) as EST. pose proof (lk_idx _ _ _ _ _ _ _ _ _ L) as HI.
  pose proof L as ((SM & M & HO & HC & HNo & HS) & HFr & ECS & HCS & BO & BD & ESS).
  pose proof SM as (SM1 & SM2 & SM3).
  pose proof (same_nth _ _ _ cs SM) as (SN1 & SN2).
  pose proof M as (M1 & M2 & M3 & M4 & M5 & M6 & M7).
  unfold dbody, chunk_body. rewrite ECS, ECUR, EST. cbn [fst snd]. rewrite BD, HP, SM2.
  cbv zeta. set (fsize := u32 (c_mlen h - c_len h)).
  pose proof (u32_nonneg (c_mlen h - c_len h)) as FS. fold fsize in FS.
  destruct (len u - n <? Z.min fsize (d_chunk d)) eqn:E1; [reflexivity|].
  assert (MN : Forall (bok s) (snd (nth (Z.to_nat cs) sts (chdr0, [])))).
  { apply (Forall_nth_d _ (fun x => Forall (bok s) (snd x))); [exact M1|constructor]. }
  destruct (fsize >? d_chunk d) eqn:E2.
  - rewrite (lk_set_cur _ _ _ _ _ _ _ _ _ _ L). unfold stream, set_stream.
    cbn [set_streams s_streams]. rewrite nth_set_nth_eq by exact HI. cbn [snd].
    rewrite set_nth_twice.
    set (sts1 := set_nth sts (Z.to_nat cs) (set_len h (u32 (c_len h + d_chunk d)),
       snd (nth (Z.to_nat cs) sts (chdr0, [])) ++ [set_data b (take (n + d_chunk d) u) n])).
    match goal with |- context [push_back ?x _ _ _] =>
      replace x with (set_streams s sts1) by reflexivity end.
    replace (len u - n - d_chunk d) with (len u - (n + d_chunk d)) by lia.
    match goal with |- context [mid c _ ?x _] => set (d1 := x) end.
    destruct (push_back_ok c s sts d u v cs b h (n + d_chunk d) (set_streams s sts1) sts1 d1) as (s2 & E & P & _ & CG & _); auto; try lia.
    { unfold sts1, d1, dset. cbn [d_streams]. rewrite map_set_nth, SM1. f_equal. unfold absst. cbn [fst snd].
      rewrite map_app, <- SN2. cbn [map]. rewrite payload_set. reflexivity. }
    { apply Forall_set_nth; [exact M1|]. cbn [snd]. apply Forall_app. split; [exact MN|].
      constructor; [|constructor]. apply bok_set, BO. }
    { unfold sts1. rewrite len_set_nth. exact M6. }
    rewrite E. eexists. split; [reflexivity|]. split; [apply premid_csid; exact P|].
    cbn. split; [reflexivity|exact CG].
  - rewrite (lk_set_cur _ _ _ _ _ _ _ _ _ _ L). unfold stream, set_stream.
    cbn [set_streams s_streams]. rewrite nth_set_nth_eq by exact HI. cbn [snd].
    rewrite set_nth_twice.
    set (h1 := set_ts (set_len h 0) (u32 (c_ts h + c_dtime h)) (c_dtime h)).
    set (sts1 := set_nth sts (Z.to_nat cs) (h1, [])).
    set (bs := snd (nth (Z.to_nat cs) sts (chdr0, [])) ++ [set_data b (take (n + fsize) u) n]).
    match goal with |- context [push_back ?x _ _ _] =>
      replace x with (set_streams s sts1) by reflexivity end.
    replace (len u - n - fsize) with (len u - (n + fsize)) by lia.
    match goal with |- context [ddeliver c ?x _ _ _ _] => set (d1 := x) end.
    destruct (push_back_ok c s sts d u v cs b h (n + fsize) (set_streams s sts1) sts1 d1) as (s2 & E & P & ON & CG & BK); auto; try lia.
    { unfold sts1, d1, dset. cbn [d_streams]. rewrite map_set_nth, SM1. reflexivity. }
    { apply Forall_set_nth; [exact M1|]. constructor. }
    { unfold sts1. rewrite len_set_nth. exact M6. }
    rewrite E.
    assert (FB : Forall (bok s2) bs).
    { eapply Forall_impl; [exact BK|]. apply Forall_app. split; [exact MN|].
      constructor; [|constructor]. apply bok_set, BO. }
    pose proof (deliver_ok c s2 d1 (drop (n + fsize) u ++ v) cs h1 bs (drop (n + fsize) u) P FB ON) as D.
    assert (EB : snd (dstream d cs) ++ [drop n (take (n + fsize) u)] = map payload bs).
    { unfold bs. rewrite map_app, <- SN2. reflexivity. }
    rewrite EB. destruct (ddeliver c d1 cs h1 (map payload bs) (drop (n + fsize) u)) as [|o|d2 r] eqn:ED; [contradiction|exact D|].
    apply ddeliver_rest in ED. subst r. exact D.
Qed.
