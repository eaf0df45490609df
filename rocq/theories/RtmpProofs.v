(* Lemmas about the RTMP chunk reader: lists, headers, repacking, and the
   decoder of a flat stream of bytes that the reader is compared with. *)

From Coq Require Import List ZArith Lia Bool Arith.
From Coq Require Import ZifyBool ZifyNat.
From Verif Require Import Lists Bytes RtmpModel.
Import ListNotations.
Open Scope Z_scope.

(* ---- lists ---- *)

Lemma len_nil A : len (@nil A) = 0.
Proof. reflexivity. Qed.

Lemma len_cons A (x : A) l : len (x :: l) = 1 + len l.
Proof. unfold len. cbn [length]. lia. Qed.

Lemma len_app A (a b : list A) : len (a ++ b) = len a + len b.
Proof. unfold len. rewrite app_length. lia. Qed.

Lemma len_nonneg A (l : list A) : 0 <= len l.
Proof. unfold len. lia. Qed.

Lemma len_0 A (l : list A) : len l = 0 -> l = [].
Proof. destruct l; [reflexivity|]. rewrite len_cons. pose proof (len_nonneg _ l). lia. Qed.

Lemma len_take A n (l : list A) : 0 <= n <= len l -> len (take n l) = n.
Proof. unfold len, take. intros H. rewrite firstn_length. lia. Qed.

Lemma len_drop A n (l : list A) : 0 <= n <= len l -> len (drop n l) = len l - n.
Proof. unfold len, drop. intros H. rewrite skipn_length. lia. Qed.

Lemma len_drop_gen A n (l : list A) : 0 <= n -> len (drop n l) = Z.max 0 (len l - n).
Proof. unfold len, drop. intros H. rewrite skipn_length. lia. Qed.

Lemma take_drop A n (l : list A) : take n l ++ drop n l = l.
Proof. apply firstn_skipn. Qed.

Lemma take_app A n (a b : list A) : 0 <= n <= len a -> take n (a ++ b) = take n a.
Proof.
  unfold len, take. intros H. rewrite firstn_app.
  replace (Z.to_nat n - length a)%nat with 0%nat by lia. cbn. apply app_nil_r.
Qed.

Lemma drop_app A n (a b : list A) : 0 <= n <= len a -> drop n (a ++ b) = drop n a ++ b.
Proof.
  unfold len, drop. intros H. rewrite skipn_app.
  replace (Z.to_nat n - length a)%nat with 0%nat by lia. reflexivity.
Qed.

Lemma drop_app_exact A (a b : list A) : drop (len a) (a ++ b) = b.
Proof. unfold len, drop. rewrite Nat2Z.id. apply skipn_app_exact. Qed.

Lemma take_app_exact A (a b : list A) : take (len a) (a ++ b) = a.
Proof. unfold len, take. rewrite Nat2Z.id. apply firstn_app_exact. Qed.

Lemma take_all A n (l : list A) : len l <= n -> take n l = l.
Proof. unfold len, take. intros H. apply firstn_all2. lia. Qed.

Lemma drop_all A n (l : list A) : len l <= n -> drop n l = [].
Proof. unfold len, drop. intros H. apply skipn_all2. lia. Qed.

Lemma drop_0 A (l : list A) : drop 0 l = l.
Proof. reflexivity. Qed.

Lemma drop_drop A a b (l : list A) : 0 <= a -> 0 <= b -> drop a (drop b l) = drop (a + b) l.
Proof.
  unfold drop. intros Ha Hb. rewrite skipn_skipn_add. f_equal. lia.
Qed.

Lemma drop_take A a b (l : list A) : 0 <= a <= b -> drop a (take b l) = take (b - a) (drop a l).
Proof.
  unfold drop, take. intros H. rewrite skipn_firstn_comm. f_equal. lia.
Qed.

Lemma take_neg A n (l : list A) : n <= 0 -> take n l = [].
Proof. unfold take. intros H. replace (Z.to_nat n) with 0%nat by lia. reflexivity. Qed.

Lemma set_nth_twice A (l : list A) i x y : set_nth (set_nth l i x) i y = set_nth l i y.
Proof. revert i. induction l as [|a l IH]; intros [|i]; cbn; f_equal; auto. Qed.

Lemma nth_set_nth_eq A (l : list A) i x d : (i < length l)%nat -> nth i (set_nth l i x) d = x.
Proof. revert i. induction l as [|a l IH]; intros [|i] H; cbn in *; try lia; auto. apply IH. lia. Qed.

Lemma nth_set_nth_neq A (l : list A) i j x d : i <> j -> nth j (set_nth l i x) d = nth j l d.
Proof. revert i j. induction l as [|a l IH]; intros [|i] [|j] H; cbn in *; try lia; auto. Qed.

Lemma set_nth_nth A (l : list A) i d : set_nth l i (nth i l d) = l.
Proof. revert i. induction l as [|a l IH]; intros [|i]; cbn; f_equal; auto. Qed.

Lemma Forall_set_nth A (P : A -> Prop) l i x : Forall P l -> P x -> Forall P (set_nth l i x).
Proof.
  intros F Hx. revert i. induction F as [|a l Ha F IH]; intros [|i]; cbn; constructor; auto.
Qed.

Lemma Forall_nth_d A (P : A -> Prop) l i d : Forall P l -> P d -> P (nth i l d).
Proof. intros F Hd. revert i. induction F; intros [|i]; cbn; auto. Qed.

Lemma removelast_snoc A (l : list A) x : removelast (l ++ [x]) = l.
Proof. rewrite removelast_app by discriminate. cbn. apply app_nil_r. Qed.

Lemma rev_snoc A (l : list A) x : rev (l ++ [x]) = x :: rev l.
Proof. apply rev_app_distr. Qed.

(* ---- headers ---- *)

Lemma parse_basic_app u e r : parse_basic u = Some r -> parse_basic (u ++ e) = Some r.
Proof.
  unfold parse_basic. destruct u as [|x u]; [discriminate|]. cbn [app].
  destruct (x mod 64 =? 0).
  { destruct u as [|a u]; [discriminate|]. auto. }
  destruct (x mod 64 =? 1).
  { destruct u as [|a [|b u]]; try discriminate. auto. }
  auto.
Qed.

Lemma parse_basic_size u fmt cs n : parse_basic u = Some (fmt, cs, n) -> 1 <= n <= 3 /\ n <= len u.
Proof.
  unfold parse_basic. destruct u as [|x u]; [discriminate|].
  pose proof (len_nonneg _ u).
  destruct (x mod 64 =? 0).
  { destruct u as [|a u]; [discriminate|]. intros [= <- <- <-].
    rewrite !len_cons. pose proof (len_nonneg _ u). lia. }
  destruct (x mod 64 =? 1).
  { destruct u as [|a [|b u]]; try discriminate. intros [= <- <- <-].
    rewrite !len_cons. pose proof (len_nonneg _ u). lia. }
  intros [= <- <- <-]. rewrite len_cons. lia.
Qed.

Lemma parse_basic_csid u fmt cs n : Forall is_byte u -> parse_basic u = Some (fmt, cs, n) -> 2 <= cs /\ 0 <= fmt <= 3.
Proof.
  unfold parse_basic. intros F. destruct u as [|x u]; [discriminate|].
  inversion F as [|? ? Hx F1]; subst. unfold is_byte in Hx.
  assert (0 <= x mod 64 < 64) by lia. assert (0 <= x / 64 <= 3) by lia.
  destruct (x mod 64 =? 0) eqn:E0.
  { destruct u as [|a u]; [discriminate|]. inversion F1 as [|? ? Ha F2]; subst.
    unfold is_byte in Ha. intros E. assert (fmt = x / 64) by congruence. assert (cs = 64 + a) by congruence. lia. }
  destruct (x mod 64 =? 1) eqn:E1.
  { destruct u as [|a [|b u]]; try discriminate.
    inversion F1 as [|? ? Ha F2]; subst. inversion F2 as [|? ? Hb F3]; subst. unfold is_byte in *.
    intros E. assert (fmt = x / 64) by congruence. assert (cs = 64 + a + 256 * b) by congruence. lia. }
  intros E. assert (fmt = x / 64) by congruence. assert (cs = x mod 64) by congruence. lia.
Qed.

(* three bytes or more always hold a basic header *)
Lemma parse_basic_long u : 3 <= len u -> parse_basic u <> None.
Proof.
  unfold parse_basic. destruct u as [|x [|a [|b u]]]; rewrite ?len_cons, ?len_nil; try lia.
  intros _. destruct (x mod 64 =? 0); [discriminate|]. destruct (x mod 64 =? 1); discriminate.
Qed.

Lemma hdr_finish_done t3 last h fmt ext ts n : exists h1 l1 t1, hdr_finish t3 last h fmt ext ts n = HDone h1 l1 t1 n.
Proof. unfold hdr_finish. destruct (c_len h =? 0); [destruct (negb (fmt =? 0))|]; eauto. Qed.

Lemma hdr_finish_n t3 last h fmt ext ts n h1 l1 t1 n1 :
  hdr_finish t3 last h fmt ext ts n = HDone h1 l1 t1 n1 -> n1 = n.
Proof.
  unfold hdr_finish. destruct (c_len h =? 0); [destruct (negb (fmt =? 0))|]; congruence.
Qed.

Lemma hdr_ext_app t3 last h fmt ext ts d n e r1 r2 r3 r4 :
  hdr_ext t3 last h fmt ext ts d n = HDone r1 r2 r3 r4 ->
  hdr_ext t3 last h fmt ext ts (d ++ e) n = HDone r1 r2 r3 r4.
Proof.
  unfold hdr_ext. destruct ext; [|auto].
  destruct d as [|e3 [|e2 [|e1 [|e0 d]]]]; try discriminate. auto.
Qed.

Lemma parse_hdr_app t3 last h fmt d e r1 r2 r3 r4 :
  parse_hdr t3 last h fmt d = HDone r1 r2 r3 r4 ->
  parse_hdr t3 last h fmt (d ++ e) = HDone r1 r2 r3 r4.
Proof.
  unfold parse_hdr. destruct (fmt <=? 2); [|apply hdr_ext_app].
  destruct d as [|t2 [|t1 [|t0 d]]]; try discriminate. cbn [app].
  destruct (fmt <=? 1); [|apply hdr_ext_app].
  destruct d as [|l2 [|l1 [|l0 [|ty d]]]]; try discriminate. cbn [app].
  destruct (fmt =? 0); [|apply hdr_ext_app].
  destruct d as [|i0 [|i1 [|i2 [|i3 d]]]]; try discriminate. cbn [app].
  apply hdr_ext_app.
Qed.

Lemma hdr_ext_size t3 last h fmt ext ts d n r1 r2 r3 r4 :
  hdr_ext t3 last h fmt ext ts d n = HDone r1 r2 r3 r4 -> n <= r4 <= n + 4 /\ r4 - n <= len d.
Proof.
  unfold hdr_ext. pose proof (len_nonneg _ d) as HL.
  destruct ext; [|intros H; apply hdr_finish_n in H; lia].
  destruct d as [|e3 [|e2 [|e1 [|e0 d]]]]; try discriminate.
  pose proof (len_nonneg _ d). rewrite !len_cons.
  destruct (is_auto t3 && (fmt >? 2)); [destruct (negb _)|]; intros E; apply hdr_finish_n in E; lia.
Qed.

Lemma parse_hdr_size t3 last h fmt d r1 r2 r3 r4 :
  parse_hdr t3 last h fmt d = HDone r1 r2 r3 r4 -> 0 <= r4 <= 15 /\ r4 <= len d.
Proof.
  unfold parse_hdr. destruct (fmt <=? 2); [|intros E; apply hdr_ext_size in E; lia].
  destruct d as [|t2 [|t1 [|t0 d]]]; try discriminate.
  destruct (fmt <=? 1); [|intros E; apply hdr_ext_size in E; rewrite !len_cons; lia].
  destruct d as [|l2 [|l1 [|l0 [|ty d]]]]; try discriminate.
  destruct (fmt =? 0); [|intros E; apply hdr_ext_size in E; rewrite !len_cons; lia].
  destruct d as [|i0 [|i1 [|i2 [|i3 d]]]]; try discriminate.
  intros E; apply hdr_ext_size in E; rewrite !len_cons; lia.
Qed.

(* fifteen bytes always hold the rest of the header *)
Lemma hdr_ext_long t3 last h fmt ext ts d n : 4 <= len d -> exists r1 r2 r3 r4,
  hdr_ext t3 last h fmt ext ts d n = HDone r1 r2 r3 r4.
Proof.
  unfold hdr_ext. intros HL.
  destruct ext; [|destruct (hdr_finish_done t3 last h fmt false ts n) as (a & b & c & E); rewrite E; eauto].
  destruct d as [|e3 [|e2 [|e1 [|e0 d]]]]; rewrite ?len_cons, ?len_nil in HL; try lia.
  cbv zeta. destruct (is_auto t3 && (fmt >? 2)); [destruct (negb _)|];
  match goal with |- exists _ _ _ _, hdr_finish ?a ?b ?c ?d ?e ?f ?g = _ =>
    destruct (hdr_finish_done a b c d e f g) as (x & y & z & E); rewrite E; eauto end.
Qed.

Lemma parse_hdr_long t3 last h fmt d : 15 <= len d -> exists r1 r2 r3 r4,
  parse_hdr t3 last h fmt d = HDone r1 r2 r3 r4.
Proof.
  unfold parse_hdr. intros HL. destruct (fmt <=? 2); [|apply hdr_ext_long; lia].
  destruct d as [|t2 [|t1 [|t0 d]]]; rewrite ?len_cons, ?len_nil in HL; try lia.
  destruct (fmt <=? 1); [|apply hdr_ext_long; lia].
  destruct d as [|l2 [|l1 [|l0 [|ty d]]]]; rewrite ?len_cons, ?len_nil in HL; try lia.
  destruct (fmt =? 0); [|apply hdr_ext_long; lia].
  destruct d as [|i0 [|i1 [|i2 [|i3 d]]]]; rewrite ?len_cons, ?len_nil in HL; try lia.
  apply hdr_ext_long; lia.
Qed.

(* what is stored of an incomplete header does not change how it is read again *)
Lemma parse_hdr_again t3 last h fmt d h1 e :
  parse_hdr t3 last h fmt d = HMore h1 ->
  parse_hdr t3 last h1 fmt (d ++ e) = parse_hdr t3 last h fmt (d ++ e).
Proof.
  unfold parse_hdr. destruct (fmt <=? 2) eqn:F2.
  2:{ unfold hdr_ext. destruct (c_ext h) eqn:EX.
      - destruct d as [|e3 [|e2 [|e1 [|e0 d]]]];
          try (intros [= <-]; rewrite EX; reflexivity).
        destruct (is_auto t3 && (fmt >? 2)); [destruct (negb _)|];
        match goal with |- hdr_finish ?a ?b ?c ?d ?e ?f ?g = _ -> _ =>
          destruct (hdr_finish_done a b c d e f g) as (x & y & z & E); rewrite E; discriminate end.
      - destruct (hdr_finish_done t3 last h fmt false (c_dtime h) 0) as (x & y & z & E); rewrite E; discriminate. }
  destruct d as [|t2 [|t1 [|t0 d]]]; try (intros [= <-]; reflexivity). cbn [app].
  assert (X : forall ha hb ext ts dd n h2,
    hdr_ext t3 last ha fmt ext ts dd n = HMore h2 -> h2 = ha /\ (hb = h2 -> 
    hdr_ext t3 last hb fmt ext ts (dd ++ e) n = hdr_ext t3 last ha fmt ext ts (dd ++ e) n)).
  { intros ha hb ext ts dd n h2 E.
    assert (h2 = ha).
    { revert E. unfold hdr_ext. destruct ext.
      - destruct dd as [|e3 [|e2 [|e1 [|e0 dd]]]]; try (intros [= <-]; reflexivity).
        destruct (is_auto t3 && (fmt >? 2)); [destruct (negb _)|];
        match goal with |- hdr_finish ?a ?b ?c ?d ?e ?f ?g = _ -> _ =>
          destruct (hdr_finish_done a b c d e f g) as (x & y & z & E); rewrite E; discriminate end.
      - destruct (hdr_finish_done t3 last ha fmt false ts n) as (x & y & z & E); rewrite E; discriminate. }
    split; [auto|]. intros ->. subst. reflexivity. }
  destruct (fmt <=? 1) eqn:F1.
  2:{ intros E. destruct (X _ h1 _ _ _ _ _ E) as [-> _]. reflexivity. }
  destruct d as [|l2 [|l1 [|l0 [|ty d]]]]; try (intros [= <-]; reflexivity). cbn [app].
  destruct (fmt =? 0) eqn:F0.
  2:{ intros E. destruct (X _ h1 _ _ _ _ _ E) as [-> _]. cbn. reflexivity. }
  destruct d as [|i0 [|i1 [|i2 [|i3 d]]]]; try (intros [= <-]; reflexivity). cbn [app].
  intros E. destruct (X _ h1 _ _ _ _ _ E) as [-> _]. cbn. reflexivity.
Qed.

Lemma hdr_finish_len t3 last h fmt ext ts n h1 l1 t1 n1 :
  hdr_finish t3 last h fmt ext ts n = HDone h1 l1 t1 n1 -> c_len h1 = c_len h.
Proof.
  unfold hdr_finish. destruct (c_len h =? 0); [destruct (negb (fmt =? 0))|]; intros [= <- <- <- <-]; reflexivity.
Qed.

Lemma hdr_ext_len t3 last h fmt ext ts d n h1 l1 t1 n1 :
  hdr_ext t3 last h fmt ext ts d n = HDone h1 l1 t1 n1 -> c_len h1 = c_len h.
Proof.
  unfold hdr_ext. destruct ext; [|apply hdr_finish_len].
  destruct d as [|e3 [|e2 [|e1 [|e0 d]]]]; try discriminate.
  destruct (is_auto t3 && (fmt >? 2)); [destruct (negb _)|]; intros E; apply hdr_finish_len in E; exact E.
Qed.

Lemma parse_hdr_len t3 last h fmt d h1 l1 t1 n1 :
  parse_hdr t3 last h fmt d = HDone h1 l1 t1 n1 -> c_len h1 = c_len h.
Proof.
  unfold parse_hdr. destruct (fmt <=? 2); [|apply hdr_ext_len].
  destruct d as [|t2 [|t1' [|t0 d]]]; try discriminate.
  destruct (fmt <=? 1); [|apply hdr_ext_len].
  destruct d as [|l2 [|l1' [|l0 [|ty d]]]]; try discriminate.
  destruct (fmt =? 0); [|intros E; apply hdr_ext_len in E; exact E].
  destruct d as [|i0 [|i1 [|i2 [|i3 d]]]]; try discriminate.
  intros E; apply hdr_ext_len in E; exact E.
Qed.

(* ---- repacking ---- *)

Lemma repack_loop_ok fuel : forall cap bo li,
  1 <= cap -> len bo <= cap -> li <> [] ->
  (length li + length (concat li) + (if Z.eqb (len bo) cap then 1 else 0) <= fuel)%nat ->
  exists r, repack_loop fuel cap bo li = Some r /\ concat r = bo ++ concat li /\
    Forall (fun d => len d <= cap) r /\ r <> [] /\
    (forall k, k <= cap -> k <= len bo + len (concat li) -> k <= len (hd [] r)).
Proof.
  induction fuel as [|fuel IH]; intros cap bo li HC HB HL HF.
  { destruct li; [congruence|]. cbn in HF. lia. }
  destruct li as [|bi li]; [congruence|]. cbn [repack_loop].
  destruct (len bi <=? cap - len bo) eqn:E.
  - apply Z.leb_le in E. destruct li as [|b2 li].
    + eexists. split; [reflexivity|]. cbn [concat]. rewrite app_nil_r. cbn [concat]. rewrite !app_nil_r.
      split; [reflexivity|]. split; [constructor; [rewrite len_app; lia|constructor]|]. split; [discriminate|].
      intros k H1 H2. cbn [hd]. rewrite len_app. lia.
    + destruct (IH cap (bo ++ bi) (b2 :: li)) as (r & R1 & R2 & R3 & R4 & R5).
      * lia.
      * rewrite len_app. lia.
      * discriminate.
      * cbn [length concat] in *. rewrite app_length in HF. rewrite len_app.
        destruct bi as [|x bi].
        { rewrite len_nil, Z.add_0_r. cbn [length] in HF. destruct (len bo =? cap); lia. }
        { cbn [length] in HF. destruct (len bo =? cap); destruct (_ =? cap); lia. }
      * exists r. split; [exact R1|]. split; [rewrite R2; cbn [concat]; rewrite <- app_assoc; reflexivity|].
        split; [exact R3|]. split; [exact R4|].
        intros k H1 H2. apply R5; [exact H1|]. cbn [concat] in *. rewrite !len_app in *. lia.
  - apply Z.leb_gt in E. pose proof (len_nonneg _ bo) as HB0.
    destruct (IH cap [] (drop (cap - len bo) bi :: li)) as (r & R1 & R2 & R3 & R4 & R5).
    + lia.
    + rewrite len_nil. lia.
    + discriminate.
    + rewrite len_nil. replace (0 =? cap) with false by lia. cbn [length concat] in *.
      rewrite !app_length in *. pose proof (len_drop _ (cap - len bo) bi ltac:(lia)) as LD.
      unfold len in *. destruct (Z.of_nat (length bo) =? cap) eqn:EC; lia.
    + rewrite R1. eexists. split; [reflexivity|]. cbn [concat]. rewrite R2. cbn [concat app].
      split; [rewrite <- (take_drop _ (cap - len bo) bi) at 3; rewrite <- !app_assoc; reflexivity|].
      split; [constructor; [rewrite len_app, len_take by lia; lia|exact R3]|]. split; [discriminate|].
      intros k H1 H2. cbn [hd]. rewrite len_app, len_take by lia. lia.
Qed.

Lemma repack_ok cap li : 1 <= cap -> exists r, repack cap li = Some r /\ concat r = concat li /\
  Forall (fun d => len d <= cap) r /\
  (forall k, k <= cap -> k <= len (concat li) -> k <= len (hd [] r)).
Proof.
  intros HC. unfold repack. destruct li as [|b li].
  - exists []. cbn [concat hd]. split; [reflexivity|]. split; [reflexivity|]. split; [constructor|].
    intros k H1 H2. change (len []) with 0 in *. lia.
  - destruct (repack_loop_ok (repack_fuel (b :: li)) cap [] (b :: li)) as (r & R1 & R2 & R3 & _ & R5).
    + exact HC.
    + rewrite len_nil; lia.
    + discriminate.
    + unfold repack_fuel. rewrite len_nil. replace (0 =? cap) with false by lia. lia.
    + exists r. rewrite len_nil in R5. auto.
Qed.

Definition repack_get (cap : Z) (li : list (list Z)) : list (list Z) :=
  match repack cap li with Some r => r | None => [] end.

Lemma repack_get_ok cap li : 1 <= cap -> repack cap li = Some (repack_get cap li).
Proof. intros HC. unfold repack_get. destruct (repack_ok cap li HC) as (r & E & _). rewrite E. reflexivity. Qed.

Lemma repack_get_concat cap li : 1 <= cap -> concat (repack_get cap li) = concat li.
Proof.
  intros HC. unfold repack_get. destruct (repack_ok cap li HC) as (r & E & E2 & _). rewrite E. exact E2.
Qed.

Lemma repack_get_head cap li k : 1 <= cap -> k <= cap -> k <= len (concat li) -> k <= len (hd [] (repack_get cap li)).
Proof.
  intros HC. unfold repack_get. destruct (repack_ok cap li HC) as (r & E & _ & _ & E2). rewrite E. apply E2.
Qed.

(* ---- the decoder of a flat stream ---- *)

Record dst := Dst {
  d_streams : list (chdr * list (list Z));
  d_last : Z;
  d_t3 : t3_mode;
  d_chunk : Z;
  d_out : list msg
}.

Definition dstream (d : dst) (c : Z) : chdr * list (list Z) := nth (Z.to_nat c) (d_streams d) (chdr0, []).

Inductive dres := DMore | DClose (out : list msg) | DDone (d : dst) (rest : list Z).

Definition dset_chunk (d : dst) (size : Z) : dst :=
  if size <? 1 then d
  else if size >? max_chunk_size then d
  else Dst (map (fun x => (fst x, repack_get (size + max_chunk_header) (snd x))) (d_streams d))
         (d_last d) (d_t3 d) size (d_out d).

Definition dprotocol (d : dst) (m : msg) : dst :=
  if m_type m =? msg_chunk_size then
    match m_bufs m with
    | (a :: b :: x :: y :: _) :: _ => dset_chunk d (be32 a b x y)
    | _ => d
    end
  else d.

Definition ddeliver (c : cfg) (d : dst) (csid : Z) (h : chdr) (bs : list (list Z)) (rest : list Z) : dres :=
  let m := Msg csid (c_ts h) (c_mlen h) (c_type h) (c_msid h) bs in
  if c_type h >? msg_max then DDone d rest
  else
    let d1 := Dst (d_streams d) (d_last d) (d_t3 d) (d_chunk d) (d_out d ++ [m]) in
    let d2 := dprotocol d1 m in
    if accept c (d_out d2) then DDone d2 rest else DClose (d_out d2).

Definition dset (d : dst) (csid : Z) x (last : Z) (t3 : t3_mode) : dst :=
  Dst (set_nth (d_streams d) (Z.to_nat csid) x) last t3 (d_chunk d) (d_out d).

(* the body of a chunk: n bytes of header, h the header read *)
Definition dbody (c : cfg) (d : dst) (csid : Z) (h : chdr) (last : Z) (t3 : t3_mode) (n : Z) (u : list Z) : dres :=
  let fsize := u32 (c_mlen h - c_len h) in
  if len u - n <? Z.min fsize (d_chunk d) then DMore
  else if fsize >? d_chunk d then
    DDone (dset d csid (set_len h (u32 (c_len h + d_chunk d)),
                        snd (dstream d csid) ++ [drop n (take (n + d_chunk d) u)]) last t3)
      (drop (n + d_chunk d) u)
  else
    let h1 := set_ts (set_len h 0) (u32 (c_ts h + c_dtime h)) (c_dtime h) in
    ddeliver c (dset d csid (h1, []) last t3) csid h1
      (snd (dstream d csid) ++ [drop n (take (n + fsize) u)]) (drop (n + fsize) u).

Definition dec (c : cfg) (d : dst) (u : list Z) : dres :=
  match parse_basic u with
  | None => DMore
  | Some (fmt, csid, n) =>
      if csid >=? max_streams c then DClose (d_out d)
      else
        match parse_hdr (d_t3 d) (d_last d) (fst (dstream d csid)) fmt (drop n u) with
        | HMore _ => DMore
        | HDone h last t3 n1 =>
            if c_mlen h >? max_message c then DClose (d_out d)
            else dbody c d csid h last t3 (n + n1) u
        end
  end.

(* the result of a chunk does not depend on the bytes after it *)
Definition dres_app (r : dres) (e : list Z) : dres :=
  match r with DDone d rest => DDone d (rest ++ e) | x => x end.

Lemma u32_nonneg x : 0 <= u32 x.
Proof. unfold u32. apply Z.mod_pos_bound. lia. Qed.

Lemma u32_lt x : u32 x < 4294967296.
Proof. unfold u32. change (2 ^ 32) with 4294967296. apply Z.mod_pos_bound. lia. Qed.

Lemma dbody_app c d csid h last t3 n u e : 0 <= n <= len u -> 0 <= d_chunk d ->
  dbody c d csid h last t3 n u <> DMore ->
  dbody c d csid h last t3 n (u ++ e) = dres_app (dbody c d csid h last t3 n u) e.
Proof.
  intros HN HCH. unfold dbody. cbv zeta. set (fsize := u32 (c_mlen h - c_len h)).
  pose proof (u32_nonneg (c_mlen h - c_len h)) as HU. fold fsize in HU.
  pose proof (len_nonneg _ e). rewrite len_app.
  destruct (len u - n <? Z.min fsize (d_chunk d)) eqn:E; [congruence|]. intros _.
  replace (len u + len e - n <? Z.min fsize (d_chunk d)) with false by lia.
  destruct (fsize >? d_chunk d) eqn:E2.
  - rewrite !drop_app, !take_app by lia. reflexivity.
  - rewrite !drop_app, !take_app by lia. unfold ddeliver. cbv zeta.
    destruct (_ >? msg_max); [reflexivity|]. destruct (accept c _); reflexivity.
Qed.

Lemma dec_app c d u e : 0 <= d_chunk d -> dec c d u <> DMore -> dec c d (u ++ e) = dres_app (dec c d u) e.
Proof.
  intros HC. unfold dec. destruct (parse_basic u) as [[[fmt csid] n]|] eqn:PB; [|congruence].
  rewrite (parse_basic_app _ e _ PB). destruct (parse_basic_size _ _ _ _ PB) as [N1 N2].
  destruct (csid >=? max_streams c); [reflexivity|].
  rewrite drop_app by lia.
  destruct (parse_hdr _ _ _ _ (drop n u)) as [h|h last t3 n1] eqn:PH; [congruence|].
  rewrite (parse_hdr_app _ _ _ _ _ e _ _ _ _ PH).
  pose proof (parse_hdr_size _ _ _ _ _ _ _ _ _ PH) as [S1 S2]. rewrite len_drop in S2 by lia.
  destruct (c_mlen h >? max_message c); [reflexivity|].
  intros H. apply dbody_app; [lia|exact HC|exact H].
Qed.

(* a full buffer always holds a whole chunk *)
Lemma dec_full c d u : 0 <= d_chunk d -> d_chunk d + max_chunk_header <= len u -> dec c d u <> DMore.
Proof.
  intros HC HL. unfold max_chunk_header in HL. unfold dec.
  pose proof (parse_basic_long u ltac:(lia)) as PL.
  destruct (parse_basic u) as [[[fmt csid] n]|] eqn:PB; [clear PL|congruence].
  destruct (parse_basic_size _ _ _ _ PB) as [N1 N2].
  destruct (csid >=? max_streams c); [discriminate|].
  destruct (parse_hdr_long (d_t3 d) (d_last d) (fst (dstream d csid)) fmt (drop n u)) as (h & l & t & n1 & PH).
  { rewrite len_drop by lia. lia. }
  rewrite PH. destruct (parse_hdr_size _ _ _ _ _ _ _ _ _ PH) as [S1 S2].
  destruct (c_mlen h >? max_message c); [discriminate|].
  unfold dbody. cbv zeta. pose proof (u32_nonneg (c_mlen h - c_len h)).
  replace (len u - (n + n1) <? _) with false by lia.
  destruct (_ >? d_chunk d); [discriminate|]. unfold ddeliver. cbv zeta.
  destruct (_ >? msg_max); [discriminate|]. destruct (accept c _); discriminate.
Qed.

Lemma ddeliver_rest c d csid h bs rest d1 r : ddeliver c d csid h bs rest = DDone d1 r -> r = rest.
Proof.
  unfold ddeliver. cbv zeta. destruct (_ >? msg_max); [congruence|]. destruct (accept c _); congruence.
Qed.

(* a chunk takes at least a byte *)
Lemma dec_rest c d u d1 r : 0 <= d_chunk d -> dec c d u = DDone d1 r -> exists k, 1 <= k <= len u /\ r = drop k u.
Proof.
  intros HC. unfold dec. destruct (parse_basic u) as [[[fmt csid] n]|] eqn:PB; [|congruence].
  destruct (parse_basic_size _ _ _ _ PB) as [N1 N2].
  destruct (csid >=? max_streams c); [discriminate|].
  destruct (parse_hdr _ _ _ _ (drop n u)) as [h|h last t3 n1] eqn:PH; [discriminate|].
  pose proof (parse_hdr_size _ _ _ _ _ _ _ _ _ PH) as [S1 S2]. rewrite len_drop in S2 by lia.
  destruct (c_mlen h >? max_message c); [discriminate|].
  unfold dbody. cbv zeta. pose proof (u32_nonneg (c_mlen h - c_len h)).
  destruct (len u - (n + n1) <? _) eqn:E; [discriminate|].
  destruct (_ >? d_chunk d) eqn:E2.
  - intros [= _ <-]. exists (n + n1 + d_chunk d). split; [lia|reflexivity].
  - intros E3. apply ddeliver_rest in E3. exists (n + n1 + u32 (c_mlen h - c_len h)).
    split; [lia|exact E3].
Qed.
