(* Lemmas about the RTMP encoder: memory, and the chunks of one message. *)

From Coq Require Import List ZArith Lia Bool Arith.
From Coq Require Import ZifyBool ZifyNat.
From Verif Require Import Lists Bytes RtmpModel RtmpSpec RtmpProofs RtmpProofs4 EncModel EncSpec.
Import ListNotations.
Open Scope Z_scope.

(* ---- memory ---- *)

Lemma poke_mid A B C L p : p = len A -> len B = len L -> poke (A ++ B ++ C) p L = Some (A ++ L ++ C).
Proof.
  intros -> HB. unfold poke. rewrite !len_app. pose proof (len_nonneg _ A). pose proof (len_nonneg _ C).
  replace (_ && _) with true by lia.
  rewrite take_app_exact. replace (len A + len L) with (len (A ++ B)) by (rewrite len_app; lia).
  rewrite (app_assoc A B C), drop_app_exact. reflexivity.
Qed.

Lemma move_mid A c J R dst src n : src = len A -> n = len c -> dst = src + len J ->
  exists J', len J' = len J /\ move (A ++ c ++ J ++ R) dst src n = Some (A ++ J' ++ c ++ R).
Proof.
  intros -> -> ->. exists (take (len J) (c ++ J)).
  pose proof (len_nonneg _ A). pose proof (len_nonneg _ c). pose proof (len_nonneg _ J). pose proof (len_nonneg _ R).
  assert (L1 : len (take (len J) (c ++ J)) = len J) by (apply len_take; rewrite len_app; lia).
  split; [exact L1|].
  unfold move. rewrite !len_app. replace (_ && _) with true by lia.
  rewrite drop_app_exact, take_app_exact.
  replace (A ++ c ++ J ++ R) with ((A ++ take (len J) (c ++ J)) ++ drop (len J) (c ++ J) ++ R).
  2:{ rewrite <- app_assoc. f_equal. rewrite (app_assoc (take _ _)), take_drop, <- app_assoc. reflexivity. }
  rewrite (poke_mid (A ++ take (len J) (c ++ J))); [rewrite <- app_assoc; reflexivity|rewrite len_app; lia|].
  rewrite len_drop by (rewrite len_app; lia). rewrite len_app. lia.
Qed.

(* the body cut into chunks, with a one byte header before all but the first *)
Fixpoint weave (k : nat) (chunk hd : Z) (body : list Z) : list Z :=
  match k with
  | O => body
  | S k' => take chunk body ++ hd :: weave k' chunk hd (drop chunk body)
  end.

Lemma take_app_ge A n (a b : list A) : len a <= n -> take n (a ++ b) = a ++ take (n - len a) b.
Proof.
  unfold len, take. intros H. rewrite firstn_app, firstn_all2 by lia. f_equal. f_equal. lia.
Qed.
Lemma drop_app_ge A n (a b : list A) : len a <= n -> drop n (a ++ b) = drop (n - len a) b.
Proof.
  unfold len, drop. intros H. rewrite skipn_app, skipn_all2 by lia. cbn. f_equal. lia.
Qed.

Lemma weave_last k chunk hd : 0 <= chunk -> forall pre c' c, len pre = Z.of_nat k * chunk -> len c' = chunk ->
  weave (S k) chunk hd (pre ++ c' ++ c) = weave k chunk hd (pre ++ c') ++ hd :: c.
Proof.
  intros HC. induction k as [|k IH]; intros pre c' c HP H'.
  - rewrite (len_0 _ pre) by lia. cbn [app weave]. rewrite <- H', take_app_exact, drop_app_exact. reflexivity.
  - assert (HP' : chunk <= len pre) by nia.
    remember (S k) as k1. cbn [weave]. rewrite Heqk1 at 2. cbn [weave]. subst k1.
    rewrite !take_app, !drop_app by lia.
    rewrite IH; [rewrite <- app_assoc; reflexivity| |exact H'].
    rewrite len_drop by lia. lia.
Qed.

Lemma chunk_loop_ok chunk csid hd A : 0 < chunk -> hd = u8 (Z.lor 192 csid) -> forall i pre c J R cur,
  len pre = Z.of_nat i * chunk -> len c = cur -> len J = Z.of_nat i ->
  chunk_loop i (A ++ pre ++ c ++ J ++ R) (len A) cur chunk csid = Some (A ++ weave i chunk hd (pre ++ c) ++ R).
Proof.
  intros HC HH. induction i as [|i IH]; intros pre c J R cur HP Hc HJ.
  - rewrite (len_0 _ J) by lia. cbn [chunk_loop weave app]. rewrite <- app_assoc. reflexivity.
  - cbn [chunk_loop].
    destruct (move_mid (A ++ pre) c J R (len A + Z.of_nat (S i) * chunk + Z.of_nat (S i)) (len A + Z.of_nat (S i) * chunk) cur)
      as (J' & LJ & E); [rewrite len_app; lia|lia|lia|].
    rewrite <- app_assoc in E. rewrite E. clear E.
    assert (EJ : exists J2 z, J' = J2 ++ [z]).
    { destruct (exists_last (l := J')) as (J2 & z & E); [intros ->; change (len (@nil Z)) with 0 in LJ; lia|]. eauto. }
    destruct EJ as (J2 & z & ->). rewrite len_app in LJ. change (len [z]) with 1 in LJ.
    replace ((A ++ pre) ++ (J2 ++ [z]) ++ c ++ R) with ((A ++ pre ++ J2) ++ [z] ++ c ++ R) by (rewrite <- !app_assoc; reflexivity).
    rewrite poke_mid; [|rewrite !len_app; lia|reflexivity].
    assert (EP : exists pre' c', pre = pre' ++ c' /\ len pre' = Z.of_nat i * chunk /\ len c' = chunk).
    { exists (take (Z.of_nat i * chunk) pre), (drop (Z.of_nat i * chunk) pre).
      rewrite take_drop, len_take, len_drop by nia. split; [reflexivity|]. nia. }
    destruct EP as (pre' & c' & -> & HP' & Hc').
    replace ((A ++ (pre' ++ c') ++ J2) ++ [u8 (Z.lor 192 csid)] ++ c ++ R)
      with (A ++ pre' ++ c' ++ J2 ++ ([u8 (Z.lor 192 csid)] ++ c ++ R)) by (rewrite <- !app_assoc; reflexivity).
    rewrite IH; [|exact HP'|exact Hc'|lia].
    rewrite <- (app_assoc pre'), weave_last by (auto; lia). rewrite <- HH. cbn [app]. rewrite <- app_assoc. reflexivity.
Qed.

(* the number of chunks after the first *)
Definition more (mlen chunk : Z) : nat := Z.to_nat (chunk_count mlen chunk - 1).

Lemma more_spec mlen chunk : 0 < mlen -> 0 < chunk ->
  Z.of_nat (more mlen chunk) = chunk_count mlen chunk - 1 /\
  Z.of_nat (more mlen chunk) * chunk < mlen <= (Z.of_nat (more mlen chunk) + 1) * chunk.
Proof.
  intros HM HC. unfold more, chunk_count.
  pose proof (Z.div_mod (mlen + chunk - 1) chunk ltac:(lia)) as D.
  pose proof (Z.mod_pos_bound (mlen + chunk - 1) chunk HC) as M.
  set (q := (mlen + chunk - 1) / chunk) in *.
  assert (1 <= q) by nia. rewrite Z2Nat.id by lia. split; [reflexivity|]. nia.
Qed.

Lemma more_0 mlen chunk : 0 < mlen <= chunk -> more mlen chunk = O.
Proof. intros H. pose proof (more_spec mlen chunk ltac:(lia) ltac:(lia)). nia. Qed.
Lemma more_S mlen chunk : 0 < chunk -> chunk < mlen -> more mlen chunk = S (more (mlen - chunk) chunk).
Proof.
  intros HC H. pose proof (more_spec mlen chunk ltac:(lia) ltac:(lia)). pose proof (more_spec (mlen - chunk) chunk ltac:(lia) ltac:(lia)). nia.
Qed.

Lemma weave_more chunk hd body : 0 < chunk -> chunk < len body ->
  weave (more (len body) chunk) chunk hd body = take chunk body ++ hd :: weave (more (len body - chunk) chunk) chunk hd (drop chunk body).
Proof. intros HC H. rewrite (more_S (len body)) by lia. reflexivity. Qed.
Lemma weave_one chunk hd body : 0 < len body <= chunk -> weave (more (len body) chunk) chunk hd body = body.
Proof. intros H. rewrite more_0 by lia. reflexivity. Qed.

Lemma len_weave chunk hd k : forall body, 0 <= chunk -> Z.of_nat k * chunk <= len body -> len (weave k chunk hd body) = len body + Z.of_nat k.
Proof.
  induction k as [|k IH]; intros body HC H; cbn [weave]; [lia|].
  rewrite len_app, len_take, len_cons, IH by (try rewrite len_drop; nia). rewrite len_drop by nia. lia.
Qed.

Lemma add_chunk_headers_ok A body J R p chunk csid hd : p = len A -> 0 < len body -> 0 < chunk -> hd = u8 (Z.lor 192 csid) ->
  len J = chunk_count (len body) chunk - 1 ->
  add_chunk_headers (A ++ body ++ J ++ R) p (len body) chunk csid =
    Some (A ++ weave (more (len body) chunk) chunk hd body ++ R, p + len body + (chunk_count (len body) chunk - 1)).
Proof.
  intros -> HB HC HH HJ. unfold add_chunk_headers. replace (len body <=? 0) with false by lia.
  pose proof (more_spec (len body) chunk HB HC) as (M1 & M2). fold (more (len body) chunk). set (k := more (len body) chunk) in *.
  rewrite <- M1.
  replace (A ++ body ++ J ++ R) with (A ++ take (Z.of_nat k * chunk) body ++ drop (Z.of_nat k * chunk) body ++ J ++ R)
    by (rewrite (app_assoc (take _ _)), take_drop; reflexivity).
  rewrite (chunk_loop_ok chunk csid hd A HC HH).
  - rewrite take_drop. reflexivity.
  - apply len_take. nia.
  - rewrite len_drop by nia. reflexivity.
  - lia.
Qed.

Lemma header_len h : 0 <= h_fmt h <= 1 -> len (write_header h) = header_size (h_fmt h).
Proof.
  destruct h as [fmt csid ts mlen type msid]. cbn [h_fmt]. intros H. assert (fmt = 0 \/ fmt = 1) as [-> | ->] by lia; reflexivity.
Qed.

(* room for L at the front of B *)
Lemma split_room (B : list Z) n : 0 <= n <= len B -> B = take n B ++ drop n B /\ len (take n B) = n /\ len (drop n B) = len B - n.
Proof. intros H. rewrite take_drop, len_take, len_drop by lia. auto. Qed.

Lemma amf_write_ok A B R body fmt csid ts type msid chunk p : p = len A -> 0 < len body < 2 ^ 32 -> 0 < chunk -> 0 <= fmt <= 1 ->
  len B = msg_size fmt (len body) chunk ->
  amf_write (A ++ B ++ R, p) body fmt csid ts type msid chunk =
    Some (A ++ (write_header (EHdr fmt csid ts (len body) type msid) ++
                weave (more (len body) chunk) chunk (u8 (Z.lor 192 csid)) body) ++ R, p + len B).
Proof.
  intros -> HB HC HF LB. unfold amf_write.
  assert (EU : u32 (len body) = len body) by (unfold u32; apply Z.mod_small; lia). rewrite EU.
  pose proof (more_spec (len body) chunk ltac:(lia) HC) as (M1 & _).
  set (hs := header_size fmt) in *. assert (HH : 0 <= hs) by (unfold hs, header_size; destruct (fmt =? 0), (fmt =? 1), (fmt =? 2); lia).
  unfold msg_size in LB. fold hs in LB.
  destruct (split_room B hs ltac:(lia)) as (E1 & L1 & L2). set (B1 := take hs B) in *. set (B2 := drop hs B) in *.
  destruct (split_room B2 (len body) ltac:(lia)) as (E2 & L3 & L4). set (B3 := take (len body) B2) in *. set (J := drop (len body) B2) in *.
  rewrite E1, E2.
  replace (A ++ (B1 ++ B3 ++ J) ++ R) with ((A ++ B1) ++ B3 ++ J ++ R) by (rewrite <- !app_assoc; reflexivity).
  rewrite poke_mid by (rewrite ?len_app; lia). rewrite <- app_assoc.
  set (W := write_header (EHdr fmt csid ts (len body) type msid)).
  assert (LW : len W = hs) by (apply (header_len (EHdr fmt csid ts (len body) type msid)); exact HF).
  rewrite (poke_mid A B1) by lia.
  replace (A ++ W ++ body ++ J ++ R) with ((A ++ W) ++ body ++ J ++ R) by (rewrite <- !app_assoc; reflexivity).
  rewrite (add_chunk_headers_ok (A ++ W) body J R _ chunk csid (u8 (Z.lor 192 csid))) by (try rewrite len_app; lia).
  f_equal. f_equal; [rewrite <- !app_assoc; reflexivity|]. rewrite <- E2, <- E1, LB. lia.
Qed.

Lemma seq_write_ok A B R hs head extra type chunk sc p : p = len A -> hs = len head -> 0 < len (head ++ extra) < 2 ^ 32 -> 0 < chunk ->
  len B = msg_size 0 (len (head ++ extra)) chunk ->
  seq_write (A ++ B ++ R, p) hs head extra type chunk sc =
    Some (A ++ (write_header (EHdr 0 (k_csid sc) 0 (len (head ++ extra)) type (k_msid sc)) ++
                weave (more (len (head ++ extra)) chunk) chunk (u8 (Z.lor 192 (k_csid sc))) (head ++ extra)) ++ R, p + len B).
Proof.
  intros -> -> HB HC LB. unfold seq_write.
  rewrite <- len_app. set (body := head ++ extra) in *.
  assert (LBD : len body = len head + len extra) by apply len_app.
  assert (EU : u32 (len body) = len body) by (unfold u32; apply Z.mod_small; lia). rewrite EU.
  pose proof (more_spec (len body) chunk ltac:(lia) HC) as (M1 & _).
  unfold msg_size in LB. change (header_size 0) with 12 in LB.
  pose proof (len_nonneg _ head). pose proof (len_nonneg _ extra).
  destruct (split_room B 12 ltac:(lia)) as (E1 & L1 & L2). set (B1 := take 12 B) in *. set (B2 := drop 12 B) in *.
  destruct (split_room B2 (len head) ltac:(lia)) as (E2 & L3 & L4). set (B3 := take (len head) B2) in *. set (B4 := drop (len head) B2) in *.
  destruct (split_room B4 (len extra) ltac:(lia)) as (E3 & L5 & L6). set (B5 := take (len extra) B4) in *. set (J := drop (len extra) B4) in *.
  rewrite E1, E2, E3.
  set (W := write_header (EHdr 0 (k_csid sc) 0 (len body) type (k_msid sc))).
  assert (LW : len W = 12) by (apply (header_len (EHdr 0 (k_csid sc) 0 (len body) type (k_msid sc))); cbn; lia).
  replace (A ++ (B1 ++ B3 ++ B5 ++ J) ++ R) with (A ++ B1 ++ (B3 ++ B5 ++ J ++ R)) by (rewrite <- !app_assoc; reflexivity).
  rewrite poke_mid by lia. cbn [obind].
  replace (A ++ W ++ B3 ++ B5 ++ J ++ R) with ((A ++ W) ++ B3 ++ (B5 ++ J ++ R)) by (rewrite <- !app_assoc; reflexivity).
  rewrite poke_mid by (rewrite ?len_app; lia). cbn [obind].
  replace ((A ++ W) ++ head ++ B5 ++ J ++ R) with ((A ++ W ++ head) ++ B5 ++ (J ++ R)) by (rewrite <- !app_assoc; reflexivity).
  rewrite poke_mid by (rewrite ?len_app; lia). cbn [obind].
  replace ((A ++ W ++ head) ++ extra ++ J ++ R) with ((A ++ W) ++ body ++ J ++ R) by (unfold body; rewrite <- !app_assoc; reflexivity).
  rewrite (add_chunk_headers_ok (A ++ W) body J R _ chunk (k_csid sc) (u8 (Z.lor 192 (k_csid sc)))) by (try rewrite len_app; lia).
  f_equal. f_equal; [rewrite <- !app_assoc; reflexivity|]. rewrite <- E3, <- E2, <- E1, LB. lia.
Qed.

(* ---- the loop over the data of a frame ---- *)

Definition woven (left chunk hd : Z) (data : list Z) : list Z :=
  if len data <=? left then data
  else take left data ++ hd :: weave (more (len data - left) chunk) chunk hd (drop left data).

Lemma woven_chunk chunk hd data : 0 < chunk -> 0 < len data -> woven chunk chunk hd data = weave (more (len data) chunk) chunk hd data.
Proof.
  intros HC HD. unfold woven. destruct (len data <=? chunk) eqn:E; [rewrite weave_one by lia; reflexivity|].
  rewrite weave_more by lia. reflexivity.
Qed.

Lemma woven_app left chunk hd a b : len a <= left -> woven left chunk hd (a ++ b) = a ++ woven (left - len a) chunk hd b.
Proof.
  intros H. unfold woven. rewrite len_app. destruct (len b <=? left - len a) eqn:E.
  - replace (_ <=? _) with true by lia. reflexivity.
  - replace (_ <=? left) with false by lia. rewrite take_app_ge, drop_app_ge by exact H. rewrite <- app_assoc.
    replace (len a + len b - left) with (len b - (left - len a)) by lia. reflexivity.
Qed.

Lemma frame_loop_ok hd chunk : 0 < chunk -> forall fuel left chain, 0 <= left -> chain <> [] ->
  (2 * Z.to_nat (len (concat chain)) + length chain + (if (left =? 0)%Z then 1 else 0) < fuel)%nat ->
  frame_loop fuel hd chunk left chain = Some (woven left chunk hd (concat chain)).
Proof.
  intros HC. induction fuel as [|fuel IH]; intros left chain HL HN HF; [lia|].
  destruct chain as [|c r]; [congruence|]. cbn [frame_loop]. pose proof (len_nonneg _ c). pose proof (len_nonneg _ (concat r)).
  cbn [concat] in *. rewrite len_app in HF. cbn [length] in HF.
  destruct (len c >? left) eqn:E.
  - rewrite IH; [|lia|discriminate|].
    + cbn [obind concat]. rewrite <- drop_app by lia. f_equal.
      rewrite woven_chunk; [|lia|rewrite len_drop by (rewrite ?len_app; lia); rewrite len_app; lia].
      unfold woven. rewrite len_app. replace (_ <=? left) with false by lia. rewrite take_app by lia.
      rewrite len_drop by (rewrite ?len_app; lia). rewrite len_app. reflexivity.
    + cbn [concat length]. rewrite len_app, len_drop by lia. replace (chunk =? 0) with false by lia.
      destruct (left =? 0) eqn:EL; lia.
  - destruct r as [|c2 r].
    + cbn [concat]. rewrite app_nil_r. unfold woven. replace (len c <=? left) with true by lia. reflexivity.
    + rewrite IH; [|lia|discriminate|].
      * cbn [obind]. rewrite woven_app by lia. reflexivity.
      * set (L := len (concat (c2 :: r))) in *. set (n := length (c2 :: r)) in *.
        destruct (left =? 0) eqn:EL, (left - len c =? 0) eqn:EL2; lia.
Qed.
