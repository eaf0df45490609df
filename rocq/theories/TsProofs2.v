(* The encoder of one stream on packets instead of bytes, and that the real one does
   the same. *)

From Coq Require Import ZArith List Bool Lia ZifyBool.
From Verif Require Import Lists TsModel TsSpec TsProofs.
Import ListNotations.
Open Scope Z_scope.

Record aenc := A {
  a_done : list pkt; a_open : option pkt; a_cc : Z; a_wr : Z; a_fl : Z; a_left : Z;
  a_hdr : Z; a_pts : option Z; a_ok : bool
}.

Definition is_start (p : pkt) : bool := match k_hd p with Some _ => true | None => false end.

Definition set_v (v : Z) (p : pkt) : pkt :=
  match k_hd p with
  | Some (f, al, _) => Pkt (k_cc p) (Some (f, al, v)) (k_stuff p) (k_data p)
  | None => p
  end.

Fixpoint patch_done (v : Z) (l : list pkt) : list pkt :=
  match l with
  | [] => []
  | p :: l => if existsb is_start l then p :: patch_done v l else set_v v p :: l
  end.

Fixpoint last_v (l : list pkt) : Z :=
  match l with
  | [] => 0
  | p :: l =>
      if existsb is_start l then last_v l
      else match k_hd p with Some (_, _, v) => v | None => 0 end
  end.

Definition a_put (a : aenc) (d : list pkt) (o : option pkt) (wr : Z) (ok : bool) : aenc :=
  A d o (a_cc a) wr (a_fl a) (a_left a) (a_hdr a) (a_pts a) ok.

Definition open_start (a : aenc) : bool :=
  match a_open a with Some p => is_start p | None => false end.

Definition a_patch (v : Z) (a : aenc) : aenc :=
  match a_open a with
  | Some p =>
      if is_start p then a_put a (a_done a) (Some (set_v v p)) (a_wr a) (a_ok a)
      else a_put a (patch_done v (a_done a)) (Some p) (a_wr a) (a_ok a)
  | None => a_put a (patch_done v (a_done a)) None (a_wr a) (a_ok a)
  end.

Definition a_size (a : aenc) : Z :=
  match a_open a with
  | Some p => match k_hd p with Some (_, _, v) => v | None => last_v (a_done a) end
  | None => last_v (a_done a)
  end.

Definition a_init (a : aenc) : aenc :=
  A (a_done a) (Some (Pkt (a_cc a) None 0 [])) (a_cc a + 1) (a_wr a) (a_fl a) (a_left a)
    (a_hdr a) None (a_ok a).

Definition a_stuff (t : strm) (a : aenc) : aenc :=
  let a := if negb (a_wr a =? 0) && negb (is_video t) then
             let v := a_size a + a_wr a in
             let a := a_patch (if 65535 <? v then 0 else v) a in
             a_put a (a_done a) (a_open a) 0 (a_ok a)
           else a in
  match a_open a with
  | None => a_put a (a_done a) None (a_wr a) false
  | Some p =>
      a_put a (a_done a ++ [Pkt (k_cc p) (k_hd p) (188 - length (wire t p)) (k_data p)])
        None (a_wr a) false
  end.

Definition a_start (t : strm) (f : frame) (a : aenc) : aenc :=
  let h := hsize t in
  match a_open a with
  | None =>
      A (a_done a) (Some (Pkt (a_cc a) (Some (f, true, 0)) 0 [])) (a_cc a + 1) (a_wr a) 0
        (184 - Z.of_nat h) (f_header f) None true
  | Some p =>
      let f' := match a_pts a with
                | Some x => Frame x (f_dts f) (f_size f) (f_header f)
                | None => f
                end in
      if (4 + length (k_data p) + h <? 188)%nat then
        A (a_done a) (Some (Pkt (k_cc p) (Some (f', false, 0)) 0 (k_data p))) (a_cc a) (a_wr a) 0
          (184 - Z.of_nat h - zlen (k_data p)) (f_header f) (a_pts a) true
      else
        let d := a_done a ++ [Pkt (k_cc p) (Some (f', false, 0)) 0 (firstn (184 - h) (k_data p))] in
        let rest := skipn (184 - h) (k_data p) in
        match rest with
        | [] => A d None (a_cc a) (a_wr a) 0 184 (f_header f) (a_pts a) true
        | _ =>
            A d (Some (Pkt (a_cc a) None 0 rest)) (a_cc a + 1) (a_wr a) 0
              (184 - zlen rest) (f_header f) None true
        end
  end.

Fixpoint a_full (n : nat) (buf : list Z) (a : aenc) : aenc :=
  match n with
  | O => a
  | S n =>
      a_full n (skipn 184 buf)
        (A (a_done a ++ [Pkt (a_cc a) None 0 (firstn 184 buf)]) None (a_cc a + 1) (a_wr a)
           (a_fl a) (a_left a) (a_hdr a) None (a_ok a))
  end.

Definition a_more (p : pkt) (x : list Z) : pkt :=
  Pkt (k_cc p) (k_hd p) (k_stuff p) (k_data p ++ x).

Definition a_write (t : strm) (buf : list Z) (a : aenc) : aenc :=
  let a := a_put a (a_done a) (a_open a) (a_wr a + zlen buf) (a_ok a) in
  let a := match a_open a with None => a_init a | Some _ => a end in
  match a_open a with
  | None => a
  | Some p =>
      if (length (wire t p) + length buf <? 188)%nat
      then a_put a (a_done a) (Some (a_more p buf)) (a_wr a) (a_ok a)
      else
        let k := (188 - length (wire t p))%nat in
        let rest := skipn k buf in
        let n := (length rest / 184)%nat in
        let a := a_full n rest
                   (A (a_done a ++ [a_more p (firstn k buf)]) None (a_cc a) (a_wr a)
                      (a_fl a + a_left a + Z.of_nat (n * 184)) 184 (a_hdr a) (a_pts a) (a_ok a)) in
        match skipn (n * 184) rest with
        | [] => a
        | l =>
            A (a_done a) (Some (Pkt (a_cc a) None 0 l)) (a_cc a + 1) (a_wr a) (a_fl a)
              (a_left a) (a_hdr a) None (a_ok a)
        end
  end.

Fixpoint a_nulls (n : nat) (a : aenc) : aenc :=
  match n with
  | O => a
  | S n =>
      a_nulls n (A (a_done a ++ [Pkt (a_cc a) None 184 []]) None (a_cc a + 1) (a_wr a)
                   (a_fl a) (a_left a) (a_hdr a) None (a_ok a))
  end.

Definition a_stuffs (c : conf) (last : bool) (a : aenc) : bool :=
  c_align c || (match a_open a with None => true | Some _ => false end)
  || (a_fl a <? a_hdr a) || last.

Definition a_flush (c : conf) (t : strm) (last : bool) (a : aenc) : aenc :=
  let stuff := a_stuffs c last a in
  let '(a, v) :=
    if is_video t && negb (c_align c) then (a, 0)
    else
      let v := 8 + a_wr a + (if is_video t then 5 else 0) in
      let v := if 65535 <? v then 0 else v in
      match stuff, a_open a with
      | false, Some p =>
          (a_put a (a_done a) (a_open a) (Z.of_nat (length (wire t p)) - 4) (a_ok a),
           v - (Z.of_nat (length (wire t p)) - 4))
      | _, _ => (a_put a (a_done a) (a_open a) 0 (a_ok a), v)
      end in
  let a := a_patch v a in
  let a := if stuff then a_stuff t a else a in
  if last && negb (is_other t) then a_nulls (Z.to_nat ((- a_cc a) mod 16)) a else a.

Definition a_sub (f : frame) (a : aenc) : aenc :=
  match a_open a with
  | None =>
      A (a_done a) (Some (Pkt (a_cc a) None 0 [])) (a_cc a + 1) (a_wr a) (a_fl a) (a_left a)
        (a_hdr a) (Some (f_pts f)) (a_ok a)
  | Some p =>
      match a_pts a with
      | None => A (a_done a) (a_open a) (a_cc a) (a_wr a) (a_fl a) (a_left a) (a_hdr a)
                  (Some (f_pts f)) (a_ok a)
      | Some _ => a
      end
  end.

Definition aenc0 (t : strm) : aenc := A [] None (t_cc0 t) 0 0 0 0 None false.

(* ------------------------------------------------------------------ *)
(* The packets of one stream in the queue                               *)

Fixpoint own_from (k i : nat) (l : list slot) : list (nat * option (list Z)) :=
  match l with
  | [] => []
  | (j, x) :: l => if (j =? i)%nat then (k, x) :: own_from (S k) i l else own_from (S k) i l
  end.
Definition own (i : nat) (q : queue) : list (nat * option (list Z)) := own_from 0 i (q_slots q).

Lemma own_from_app i j x l k :
  own_from k i (l ++ [(j, x)]) =
  own_from k i l ++ (if (j =? i)%nat then [((k + length l)%nat, x)] else []).
Proof.
  revert k. induction l as [|[a y] l IH]; intros k; cbn [app own_from length].
  - rewrite Nat.add_0_r. destruct (j =? i)%nat; reflexivity.
  - rewrite IH. replace (S k + length l)%nat with (k + S (length l))%nat by lia.
    destruct (a =? i)%nat; reflexivity.
Qed.

Lemma own_from_in i l k n x :
  In (n, x) (own_from k i l) <-> (k <= n)%nat /\ nth_error l (n - k) = Some (i, x).
Proof.
  revert k. induction l as [|[a y] l IH]; intros k; cbn [own_from].
  - split; [intros []|]. intros [_ H]. destruct (n - k)%nat; discriminate.
  - assert (Step : (k < n)%nat -> nth_error ((a, y) :: l) (n - k) = nth_error l (n - S k))
      by (intros; replace (n - k)%nat with (S (n - S k)) by lia; reflexivity).
    destruct (a =? i)%nat eqn:E.
    + apply Nat.eqb_eq in E. subst a. cbn [In]. rewrite IH. split.
      * intros [H|[H1 H2]].
        -- injection H as <- <-. rewrite Nat.sub_diag. split; [lia|reflexivity].
        -- split; [lia|]. rewrite Step by lia. exact H2.
      * intros [H1 H2]. destruct (Nat.eq_dec n k) as [->|].
        -- rewrite Nat.sub_diag in H2. injection H2 as <-. left. reflexivity.
        -- right. split; [lia|]. rewrite <- Step by lia. exact H2.
    + apply Nat.eqb_neq in E. rewrite IH. split.
      * intros [H1 H2]. split; [lia|]. rewrite Step by lia. exact H2.
      * intros [H1 H2]. destruct (Nat.eq_dec n k) as [->|].
        -- rewrite Nat.sub_diag in H2. injection H2 as -> _. congruence.
        -- split; [lia|]. rewrite <- Step by lia. exact H2.
Qed.

Lemma own_in i q n x : In (n, x) (own i q) <-> nth_error (q_slots q) n = Some (i, x).
Proof.
  unfold own. rewrite own_from_in, Nat.sub_0_r. split; [intros [_ H]; exact H|].
  intros H. split; [lia|exact H].
Qed.

Lemma own_from_nodup i l k : NoDup (map fst (own_from k i l)).
Proof.
  revert k. induction l as [|[a y] l IH]; intros k; cbn [own_from]; [constructor|].
  destruct (a =? i)%nat; [|apply IH]. cbn [map fst]. constructor; [|apply IH].
  intros H. apply in_map_iff in H as [[n x] [Hn Hi]]. cbn in Hn. subst n.
  apply own_from_in in Hi. lia.
Qed.

Lemma own_nodup i q : NoDup (map fst (own i q)).
Proof. apply own_from_nodup. Qed.

Definition rep (m : nat) (x : option (list Z)) (ab : nat * option (list Z)) :=
  if (fst ab =? m)%nat then (fst ab, x) else ab.

Lemma own_from_set i l k n x y :
  nth_error l n = Some (i, y) ->
  own_from k i (set_nth l n (i, x)) = map (rep (k + n) x) (own_from k i l).
Proof.
  revert k n. induction l as [|[a z] l IH]; intros k n Hn; [destruct n; discriminate|].
  assert (Skip : forall k', (k + n < k')%nat -> map (rep (k + n) x) (own_from k' i l) = own_from k' i l).
  { intros k' Hk. rewrite <- map_id. apply map_ext_in. intros [m w] Hm.
    apply own_from_in in Hm. unfold rep. cbn [fst].
    destruct (m =? k + n)%nat eqn:E; [|reflexivity]. apply Nat.eqb_eq in E. lia. }
  destruct n as [|n]; cbn [nth_error] in Hn; cbn [set_nth own_from].
  - injection Hn as -> ->. rewrite Nat.eqb_refl. cbn [map].
    rewrite Skip by lia. unfold rep. cbn [fst]. rewrite Nat.add_0_r, Nat.eqb_refl. reflexivity.
  - destruct (a =? i)%nat eqn:E.
    + cbn [map]. rewrite IH by exact Hn. replace (S k + n)%nat with (k + S n)%nat by lia. f_equal.
      unfold rep. cbn [fst]. destruct (k =? k + S n)%nat eqn:E2; [|reflexivity].
      apply Nat.eqb_eq in E2. lia.
    + rewrite IH by exact Hn. replace (S k + n)%nat with (k + S n)%nat by lia. reflexivity.
Qed.

Lemma own_from_set_other i j l k n x y :
  j <> i -> nth_error l n = Some (j, y) -> own_from k i (set_nth l n (j, x)) = own_from k i l.
Proof.
  intros Hj. revert k n. induction l as [|[a z] l IH]; intros k n Hn; [destruct n; discriminate|].
  destruct n as [|n]; cbn [nth_error] in Hn; cbn [set_nth own_from].
  - injection Hn as -> ->. assert (E : (j =? i)%nat = false) by (apply Nat.eqb_neq; exact Hj).
    rewrite E. reflexivity.
  - rewrite IH by exact Hn. reflexivity.
Qed.

Lemma own_get i j q x :
  own i (get_buffer j q x) =
  own i q ++ (if (j =? i)%nat then [(length (q_slots q), x)] else []).
Proof. unfold own, get_buffer. cbn [q_slots]. rewrite own_from_app. reflexivity. Qed.

Lemma own_fill i q n b y :
  nth_error (q_slots q) n = Some (i, y) -> own i (fill n b q) = map (rep n (Some b)) (own i q).
Proof.
  intros H. unfold own, fill. rewrite H. cbn [q_slots]. rewrite (own_from_set i _ 0 n _ y H).
  reflexivity.
Qed.

Lemma own_fill_other i j q n b y :
  j <> i -> nth_error (q_slots q) n = Some (j, y) -> own i (fill n b q) = own i q.
Proof.
  intros Hj H. unfold own, fill. rewrite H. cbn [q_slots]. apply (own_from_set_other i j _ 0 n _ y Hj H).
Qed.

Lemma len_fill n b q : length (q_slots (fill n b q)) = length (q_slots q).
Proof.
  unfold fill. destruct (nth_error (q_slots q) n) as [[i x]|]; [|reflexivity].
  cbn [q_slots]. apply set_nth_length.
Qed.

Lemma last_fill n b q : q_last (fill n b q) = q_last q.
Proof. unfold fill. destruct (nth_error (q_slots q) n) as [[i x]|]; reflexivity. Qed.

Lemma len_get i q x : length (q_slots (get_buffer i q x)) = S (length (q_slots q)).
Proof. unfold get_buffer. cbn [q_slots]. rewrite app_length. cbn. lia. Qed.

Lemma rep_same n x (l : list (nat * option (list Z))) : ~ In n (map fst l) -> map (rep n x) l = l.
Proof.
  intros H. rewrite <- map_id. apply map_ext_in. intros [m w] Hm. unfold rep. cbn [fst].
  destruct (m =? n)%nat eqn:E; [|reflexivity]. apply Nat.eqb_eq in E. subst m. exfalso. apply H.
  apply in_map_iff. exists (n, w). auto.
Qed.

Lemma rep_mid n x y (l1 l2 : list (nat * option (list Z))) :
  NoDup (map fst (l1 ++ (n, y) :: l2)) ->
  map (rep n x) (l1 ++ (n, y) :: l2) = l1 ++ (n, x) :: l2.
Proof.
  rewrite map_app. cbn [map fst]. intros H. apply NoDup_remove in H as [_ H].
  rewrite map_app. cbn [map]. rewrite in_app_iff in H.
  rewrite !rep_same by tauto. unfold rep at 1. cbn [fst]. rewrite Nat.eqb_refl. reflexivity.
Qed.

(* The first N packets do not change. *)
Definition keeps (N : nat) (q q' : queue) : Prop :=
  forall n, (n < N)%nat -> nth_error (q_slots q') n = nth_error (q_slots q) n.

Lemma keeps_refl N q : keeps N q q.
Proof. intros n _. reflexivity. Qed.

Lemma keeps_trans N q1 q2 q3 : keeps N q1 q2 -> keeps N q2 q3 -> keeps N q1 q3.
Proof. intros H1 H2 n Hn. rewrite H2 by exact Hn. apply H1. exact Hn. Qed.

Lemma keeps_get N i q x : (N <= length (q_slots q))%nat -> keeps N q (get_buffer i q x).
Proof. intros H n Hn. unfold get_buffer. cbn [q_slots]. apply nth_error_app1. lia. Qed.

Lemma keeps_fill N m b q : (N <= m)%nat -> keeps N q (fill m b q).
Proof.
  intros H n Hn. unfold fill. destruct (nth_error (q_slots q) m) as [[i x]|]; [|reflexivity].
  cbn [q_slots]. apply nth_error_set_nth_neq. lia.
Qed.
