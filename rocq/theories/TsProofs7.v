(* The PES packets that the packets of a stream carry. *)

From Coq Require Import ZArith List Bool Lia ZifyBool.
From Verif Require Import Lists TsModel TsSpec TsProofs TsProofs2 TsProofs3 TsProofs4 TsProofs5 TsProofs6.
Import ListNotations.
Open Scope Z_scope.

(* A PES packet: head and data.  Lists of them are newest first. *)
Definition rec : Type := (hd * list Z)%type.

Definition gadd (G : option (list rec)) (p : pkt) : option (list rec) :=
  match G with
  | None => None
  | Some G =>
      match k_hd p, G with
      | Some h, _ => Some ((h, k_data p) :: G)
      | None, (h, d) :: G => Some ((h, d ++ k_data p) :: G)
      | None, [] => None
      end
  end.
Definition groups (l : list pkt) : option (list rec) := fold_left gadd l (Some []).

Lemma groups_app l p : groups (l ++ [p]) = gadd (groups l) p.
Proof. unfold groups. rewrite fold_left_app. reflexivity. Qed.

Definition view (G : list rec) (o : option pkt) : list rec * list Z :=
  match o with
  | None => (G, [])
  | Some p => match k_hd p with Some h => ((h, k_data p) :: G, []) | None => (G, k_data p) end
  end.

Definition V (done : list pkt) (o : option pkt) (recs : list rec) (tail : list Z) : Prop :=
  exists G, groups done = Some G /\ view G o = (recs, tail).

Lemma V_init done recs tail cc :
  V done None recs tail -> V done (Some (Pkt cc None 0 [])) recs [] /\ tail = [].
Proof.
  intros (G & H1 & H2). cbn in H2. injection H2 as -> <-. split; [|reflexivity].
  exists recs. split; [exact H1|reflexivity].
Qed.

Lemma V_more_start done p recs tail x :
  is_start p = true -> V done (Some p) recs tail ->
  exists h d old, recs = (h, d) :: old /\ tail = [] /\ d = k_data p /\ k_hd p = Some h /\
    V done (Some (a_more p x)) ((h, d ++ x) :: old) [].
Proof.
  intros Hs (G & H1 & H2). unfold view in H2. unfold is_start in Hs.
  destruct (k_hd p) as [h|] eqn:Eh; [|discriminate]. injection H2 as <- <-.
  exists h, (k_data p), G. repeat (split; [reflexivity|]). exists G. split; [exact H1|].
  unfold view, a_more. cbn [k_hd k_data]. rewrite Eh. reflexivity.
Qed.

Lemma V_more_cont done p recs tail x :
  is_start p = false -> V done (Some p) recs tail ->
  tail = k_data p /\ V done (Some (a_more p x)) recs (tail ++ x).
Proof.
  intros Hs (G & H1 & H2). unfold view in H2. unfold is_start in Hs.
  destruct (k_hd p) as [h|] eqn:Eh; [discriminate|]. injection H2 as -> <-.
  split; [reflexivity|]. exists recs. split; [exact H1|].
  unfold view, a_more. cbn [k_hd k_data]. rewrite Eh. reflexivity.
Qed.

Lemma V_close done p h d old tail s :
  V done (Some p) ((h, d) :: old) tail ->
  V (done ++ [Pkt (k_cc p) (k_hd p) s (k_data p)]) None ((h, d ++ tail) :: old) [].
Proof.
  intros (G & H1 & H2). unfold view in H2.
  destruct (k_hd p) as [h0|] eqn:Eh; injection H2 as H2.
  - subst. exists ((h, k_data p) :: old). rewrite groups_app, H1. cbn [gadd k_hd k_data]. 
    rewrite app_nil_r. split; reflexivity.
  - subst. exists ((h, d ++ k_data p) :: old). rewrite groups_app, H1. cbn [gadd k_hd k_data].
    split; reflexivity.
Qed.

Lemma V_push done h d old cc s x :
  V done None ((h, d) :: old) [] -> V (done ++ [Pkt cc None s x]) None ((h, d ++ x) :: old) [].
Proof.
  intros (G & H1 & H2). cbn in H2. injection H2 as ->. exists ((h, d ++ x) :: old).
  rewrite groups_app, H1. split; reflexivity.
Qed.

Lemma V_put_close done o recs tail wr : V done o recs tail -> 0 <= wr -> V done o recs tail.
Proof. auto. Qed.

(* ---------- the head of the last PES packet ---------- *)

Lemma groups_split l h d old :
  groups l = Some ((h, d) :: old) ->
  exists l1 p l2, l = l1 ++ p :: l2 /\ k_hd p = Some h /\ existsb is_start l2 = false /\
    groups l1 = Some old.
Proof.
  revert h d old. induction l as [|p l IH] using rev_ind; intros h d old H; [discriminate|].
  rewrite groups_app in H. destruct (groups l) as [G|] eqn:EG; [|discriminate]. cbn [gadd] in H.
  destruct (k_hd p) as [h0|] eqn:Eh.
  - injection H as -> <- <-. exists l, p, []. repeat (split; [reflexivity || assumption|]). exact EG.
  - destruct G as [|[h1 d1] G]; [discriminate|]. injection H as -> <- ->.
    destruct (IH _ _ _ eq_refl) as (l1 & q & l2 & -> & H1 & H2 & H3).
    exists l1, q, (l2 ++ [p]). split; [rewrite <- app_assoc; reflexivity|]. split; [exact H1|].
    split; [|exact H3]. rewrite existsb_app, H2. cbn. unfold is_start. rewrite Eh. reflexivity.
Qed.

Lemma groups_conts l2 : existsb is_start l2 = false -> forall h d old,
  fold_left gadd l2 (Some ((h, d) :: old)) = Some ((h, d ++ concat (map k_data l2)) :: old).
Proof.
  induction l2 as [|p l2 IH]; intros H h d old; cbn [fold_left map concat].
  - rewrite app_nil_r. reflexivity.
  - cbn [existsb] in H. apply orb_false_iff in H as [H1 H2]. unfold is_start in H1. cbn [gadd].
    destruct (k_hd p); [discriminate|]. rewrite (IH H2), <- app_assoc. reflexivity.
Qed.

Lemma groups_mid l1 p l2 f al v old :
  groups l1 = Some old -> k_hd p = Some (f, al, v) -> existsb is_start l2 = false ->
  groups (l1 ++ p :: l2) = Some ((f, al, v, k_data p ++ concat (map k_data l2)) :: old).
Proof.
  intros H1 H2 H3. unfold groups in *. rewrite fold_left_app, H1. cbn [fold_left gadd]. rewrite H2.
  apply groups_conts. exact H3.
Qed.

Lemma groups_patch l f al w d old v :
  groups l = Some ((f, al, w, d) :: old) ->
  groups (patch_done v l) = Some ((f, al, v, d) :: old) /\ last_v l = w.
Proof.
  intros H. destruct (groups_split l (f, al, w) d old H) as (l1 & p & l2 & -> & H1 & H2 & H3).
  assert (Hs : is_start p = true) by (unfold is_start; rewrite H1; reflexivity).
  rewrite (groups_mid _ _ _ _ _ _ _ H3 H1 H2) in H. injection H as <-.
  rewrite (patch_mid v l1 p l2 Hs H2). split; [|eapply last_v_mid; eassumption].
  assert (E1 : k_hd (set_v v p) = Some (f, al, v)) by (unfold set_v; rewrite H1; reflexivity).
  assert (E2 : k_data (set_v v p) = k_data p) by (unfold set_v; rewrite H1; reflexivity).
  rewrite (groups_mid l1 (set_v v p) l2 f al v old H3 E1 H2), E2. reflexivity.
Qed.

Lemma V_patch a f al w d old tail v :
  V (a_done a) (a_open a) ((f, al, w, d) :: old) tail ->
  V (a_done (a_patch v a)) (a_open (a_patch v a)) ((f, al, v, d) :: old) tail /\ a_size a = w.
Proof.
  intros (G & H1 & H2). unfold a_patch, a_size, view in *. destruct (a_open a) as [p|] eqn:Eo.
  - unfold is_start, set_v. destruct (k_hd p) as [[[f0 al0] w0]|] eqn:Eh.
    + injection H2 as -> -> -> <- -> <-. cbn [a_put a_done a_open]. split; [|reflexivity].
      exists old. split; [exact H1|]. reflexivity.
    + injection H2 as -> <-. cbn [a_put a_done a_open].
      destruct (groups_patch _ _ _ _ _ _ v H1) as [P1 P2]. split; [|exact P2].
      exists ((f, al, v, d) :: old). split; [exact P1|]. cbn [view]. rewrite Eh. reflexivity.
  - injection H2 as -> <-. cbn [a_put a_done a_open].
    destruct (groups_patch _ _ _ _ _ _ v H1) as [P1 P2]. split; [|exact P2].
    exists ((f, al, v, d) :: old). split; [exact P1|reflexivity].
Qed.

(* ---------- sizes and counters ---------- *)

Definition opt (o : option pkt) : list pkt := match o with Some p => [p] | None => [] end.

Fixpoint consec (x : Z) (l : list pkt) : Prop :=
  match l with [] => True | p :: l => k_cc p = x /\ consec (x + 1) l end.

Record K (t : strm) (done : list pkt) (o : option pkt) (cc : Z) : Prop := {
  k_full : Forall (fun p => length (wire t p) = 188%nat) done;
  k_part : forall p, o = Some p -> k_stuff p = O /\ (length (wire t p) < 188)%nat;
  k_seq : consec (t_cc0 t) (done ++ opt o);
  k_next : cc = t_cc0 t + Z.of_nat (length (done ++ opt o))
}.

Lemma consec_app x l p : consec x (l ++ [p]) <-> consec x l /\ k_cc p = x + Z.of_nat (length l).
Proof.
  revert x. induction l as [|q l IH]; intros x; cbn [app consec length].
  - rewrite Z.add_0_r. tauto.
  - rewrite IH. replace (x + 1 + Z.of_nat (length l)) with (x + Z.of_nat (S (length l))) by lia. tauto.
Qed.

Lemma K_init t done cc :
  K t done None cc -> K t done (Some (Pkt cc None 0 [])) (cc + 1).
Proof.
  intros [H1 H2 H3 H4]. cbn [opt] in *. rewrite app_nil_r in *. constructor; [exact H1| | |].
  - intros p Hp. injection Hp as <-. split; [reflexivity|]. rewrite len_wire. cbn [k_data k_stuff hlen k_hd length]. lia.
  - cbn [opt]. rewrite consec_app. split; [exact H3|]. cbn [k_cc]. exact H4.
  - cbn [opt]. rewrite app_length. cbn [length]. lia.
Qed.

Lemma K_replace t done p p' cc :
  K t done (Some p) cc -> k_cc p' = k_cc p -> k_stuff p' = O -> (length (wire t p') < 188)%nat ->
  K t done (Some p') cc.
Proof.
  intros [H1 H2 H3 H4] E1 E2 E3. constructor; [exact H1| | |].
  - intros q Hq. injection Hq as <-. auto.
  - cbn [opt] in *. apply consec_app in H3 as [H3 H5]. apply consec_app. split; [exact H3|congruence].
  - cbn [opt] in *. rewrite app_length in *. exact H4.
Qed.

Lemma K_close t done p p' cc :
  K t done (Some p) cc -> k_cc p' = k_cc p -> length (wire t p') = 188%nat -> K t (done ++ [p']) None cc.
Proof.
  intros [H1 H2 H3 H4] E1 E2. constructor.
  - apply Forall_app. split; [exact H1|]. constructor; [exact E2|constructor].
  - discriminate.
  - cbn [opt] in *. rewrite app_nil_r. apply consec_app in H3 as [H3 H5]. apply consec_app.
    split; [exact H3|congruence].
  - cbn [opt] in *. rewrite app_nil_r. rewrite app_length in *. exact H4.
Qed.

Lemma K_push t done cc p :
  K t done None cc -> k_cc p = cc -> length (wire t p) = 188%nat -> K t (done ++ [p]) None (cc + 1).
Proof.
  intros H E1 E2. apply K_init in H. apply (K_close _ _ _ p _ H); [exact E1|exact E2].
Qed.

Lemma K_patch t v a :
  K t (a_done a) (a_open a) (a_cc a) ->
  K t (a_done (a_patch v a)) (a_open (a_patch v a)) (a_cc (a_patch v a)).
Proof.
  assert (PD : forall l, Forall (fun p => length (wire t p) = 188%nat) l ->
     Forall (fun p => length (wire t p) = 188%nat) (patch_done v l)).
  { induction l as [|p l IH]; intros H; [constructor|]. inversion H as [|p0 l0 H1 H2]. subst p0 l0. cbn [patch_done].
    destruct (existsb is_start l); constructor; auto. rewrite len_set_v. exact H1. }
  assert (PC : forall l o x, consec x (l ++ opt o) -> consec x (patch_done v l ++ opt o)).
  { intros l o. induction l as [|p l IH]; intros x; [auto|]. cbn [app consec patch_done].
    intros [H1 H2]. destruct (existsb is_start l); cbn [app consec]; split; auto.
    unfold set_v. destruct (k_hd p) as [[[? ?] ?]|]; exact H1. }
  assert (PL : forall l, length (patch_done v l) = length l).
  { induction l as [|p l IH]; [reflexivity|]. cbn [patch_done length]. destruct (existsb is_start l); cbn [length]; lia. }
  intros [H1 H2 H3 H4]. unfold a_patch. destruct (a_open a) as [p|] eqn:Eo.
  - destruct (is_start p) eqn:Es; cbn [a_put a_done a_open a_cc].
    + destruct (H2 p eq_refl) as [Q1 Q2].
      apply (K_replace t (a_done a) p (set_v v p) (a_cc a)); [constructor; assumption| | |].
      * unfold set_v. destruct (k_hd p) as [[[? ?] ?]|]; reflexivity.
      * unfold set_v. destruct (k_hd p) as [[[? ?] ?]|]; exact Q1.
      * rewrite len_set_v. exact Q2.
    + constructor; [apply PD; exact H1|exact H2|apply PC; exact H3|].
      rewrite app_length, PL, <- app_length. exact H4.
  - cbn [a_put a_done a_open a_cc]. constructor; [apply PD; exact H1|discriminate|apply (PC _ None); exact H3|].
    rewrite app_length, PL, <- app_length. exact H4.
Qed.
