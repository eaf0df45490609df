(* The memory an RTMP upstream uses. *)

From Coq Require Import List ZArith Lia Bool Arith Permutation.
From Coq Require Import ZifyBool ZifyNat.
From Verif Require Import BufQueueModel BufQueueSpec BufQueueProofs UpModel UpSpec.
Import ListNotations.
Open Scope Z_scope.

(* what the buffers and links of an upstream take, and what is left, is the
   limit *)
Definition acct (limit size : Z) (q : bq) (links : nat) : Prop :=
  bq_alloc_size q = size /\ exists m, bq_mem_left q = Some m /\ 0 <= m /\ m + size * zl (held q) + link_size * Z.of_nat links = limit.

Definition links (u : up) : nat := (length (u_busy u) + length (u_free u))%nat.

Lemma acct_release limit size q cur l n : acct limit size (bq_set_used q (cur :: l)) n -> 8 < size ->
  acct limit size (bq_set_used (fst (bq_release q cur)) l) n.
Proof.
  intros (A & m & M & P & E) S. cbn in A, M. unfold bq_release.
  destruct (bq_free_left q <=? 0); cbn [fst].
  - split; [exact A|]. exists (m + size). cbn -[link_size]. rewrite M, A. split; [reflexivity|]. split; [lia|].
    unfold held, zl in *. cbn -[link_size] in E |- *. lia.
  - split; [exact A|]. exists m. cbn -[link_size]. split; [exact M|]. split; [exact P|].
    unfold held, zl in *. cbn -[link_size] in E |- *. rewrite app_length in *. cbn [length] in *. lia.
Qed.

Lemma release_used q cur : bq_used (fst (bq_release q cur)) = bq_used q.
Proof. unfold bq_release. destruct (bq_free_left q <=? 0); reflexivity. Qed.

Lemma acct_free limit size n lim : 8 < size -> forall l q, acct limit size (bq_set_used q l) n ->
  acct limit size (fst (bq_free_loop q lim l)) n.
Proof.
  intros S. induction l as [|cur l IH]; intros q A; cbn [bq_free_loop].
  - exact A.
  - destruct (node_contains q cur lim); [exact A|]. destruct l as [|x l]; [exact A|].
    pose proof (acct_release limit size q cur (x :: l) n A S) as R.
    destruct (bq_release q cur) as [q1 rel1]. cbn [fst] in R. specialize (IH q1 R).
    destruct (bq_free_loop q1 lim (x :: l)) as [q2 rel2]. exact IH.
Qed.

Lemma set_used_same q : bq_set_used q (bq_used q) = q.
Proof. destruct q; reflexivity. Qed.

Lemma acct_upto limit size n q lim : 8 < size -> acct limit size q n ->
  match bq_free_upto q lim with BqOk q' _ _ => acct limit size q' n | BqUB => True end.
Proof.
  intros S A. unfold bq_free_upto. destruct (bq_used q) as [|a l] eqn:E; [exact A|].
  pose proof (acct_free limit size n lim S (a :: l) q) as F. rewrite <- E in F. rewrite set_used_same in F. specialize (F A). rewrite E in F.
  destruct (bq_free_loop q lim (a :: l)) as [q' rel]. exact F.
Qed.

Lemma acct_get limit size n q r : acct limit size q n ->
  match bq_get q r with BqOk q' _ _ => acct limit size q' n | BqUB => True end.
Proof.
  intros A. pose proof A as (E & m & M & P & B). unfold bq_get. destruct (bq_free q) as [|x l] eqn:EF.
  - rewrite M. destruct (m <? bq_alloc_size q) eqn:C; [exact A|]. destruct r as [a|]; [|exact A].
    split; [exact E|]. exists (m - size). cbn -[link_size]. rewrite E. split; [reflexivity|]. split; [lia|].
    unfold held, zl in *. cbn -[link_size]. rewrite EF in B. rewrite !app_length in *. cbn [length] in *. lia.
  - split; [exact E|]. exists m. cbn -[link_size]. split; [exact M|]. split; [exact P|].
    unfold held, zl in *. cbn -[link_size]. rewrite EF in B. rewrite !app_length in *. cbn [length] in *. lia.
Qed.

Lemma chain_len mem : forall busy k, let '(_, s, rest) := send_chain mem k busy in (length s + length rest = length busy)%nat.
Proof.
  induction busy as [|[p l] r IH]; intros k; cbn [send_chain]; [reflexivity|].
  destruct (l - p <=? k); [|reflexivity]. specialize (IH (k - (l - p))). destruct (send_chain mem (k - (l - p)) r) as [[o s] rest].
  cbn [length]. lia.
Qed.

Section Steps.
Variables limit size : Z.
Hypothesis S : 8 < size.

Definition good (u : up) : Prop := acct limit size (u_q u) (links u).
Definition good2 (r : option (up * bool)) : Prop := match r with Some (u, _) => good u | None => True end.

Lemma good_send u a : good u -> good2 (send u a).
Proof.
  intros G. unfold send. destruct (u_cerr u); [exact G|]. destruct a as [|k|]; [exact G| |].
  - destruct (u_busy u) as [|b0 br] eqn:EB; [exact G|]. pose proof (chain_len (u_mem u) (b0 :: br) k) as L.
    destruct (send_chain (u_mem u) k (b0 :: br)) as [[o s] rest].
    match goal with |- good2 (match ?m with _ => _ end) => destruct m as [lim|]; [|exact Logic.I] end.
    pose proof (acct_upto limit size (links u) (u_q u) lim S G) as F. destruct (bq_free_upto (u_q u) lim) as [q r1 r2|]; [|exact Logic.I].
    assert (EL : links u = (length rest + length (rev s ++ u_free u))%nat).
    { unfold links. rewrite EB, app_length, rev_length. rewrite <- L. lia. }
    rewrite EL in F.
    destruct rest as [|x rest]; [|exact F]. cbn [good2]. destruct (_ && _); exact F.
  - destruct (u_busy u) eqn:EB; exact G.
Qed.

Lemma good_append u : good u -> good (fst (append u)).
Proof.
  intros G. unfold append. destruct (u_last u <=? u_pos u); [exact G|].
  destruct (u_free u) as [|x l] eqn:EF.
  - pose proof G as (E & m & M & P & B). rewrite M. destruct (m <? link_size) eqn:C; [exact G|].
    cbn [fst]. split; [exact E|]. exists (m - link_size). cbn -[link_size]. split; [reflexivity|]. split; [lia|].
    unfold held, links in *. cbn -[link_size]. rewrite EF in B. rewrite app_length. cbn [length] in *.
    unfold held in B. lia.
  - cbn [fst]. unfold good, links in *. cbn -[link_size]. rewrite EF in G. rewrite app_length. cbn [length] in *.
    replace (length (u_busy u) + 1 + length l)%nat with (length (u_busy u) + Datatypes.S (length l))%nat by lia. exact G.
Qed.

Lemma good_store u p l u' : good u -> store u p l = Some u' -> good u'.
Proof. unfold store. intros G E. destruct (_ || _); [|discriminate]. injection E as <-. exact G. Qed.

Lemma good_loop : forall fuel u l al app, good u ->
  match write_loop fuel u l al app with Some (u', _, _) => good u' | None => True end.
Proof.
  induction fuel as [|fuel IH]; intros u l al app G; destruct l as [|z l0]; try exact G; try exact Logic.I.
  cbn [write_loop]. destruct (_ >? _).
  - destruct (store u (u_last u) (z :: l0)) as [u1|] eqn:E; [|exact Logic.I]. exact (good_store _ _ _ _ G E).
  - destruct (store u (u_last u) _) as [u1|] eqn:E; [|exact Logic.I]. apply (good_store _ _ _ _ G) in E.
    pose proof (good_append (set_active u1 (u_pos u1) (u_end u1) (u_end u1)) E) as A.
    destruct (append _) as [u2 ok]. cbn [fst] in A. destruct (negb ok); [exact A|].
    pose proof (acct_get limit size (links u2) (u_q u2) (hd None al) A) as H.
    destruct (bq_get (u_q u2) (hd None al)) as [q [p|] rel|]; [|exact H|exact Logic.I].
    apply IH. exact H.
Qed.

Lemma good_flush u a : good u -> good2 (flush u a).
Proof.
  intros G. unfold flush. pose proof (good_append u G) as A. destruct (append u) as [u1 ok]. cbn [fst] in A.
  destruct (negb ok); [exact A|]. destruct a; [exact A| |]; apply good_send; exact A.
Qed.

Lemma good_op u op : good u -> good2 (up_op u op).
Proof.
  intros G. destruct op as [l al a|l al a|a|a| |none|mem]; cbn [up_op].
  - unfold write. destruct (u_err u); [exact G|]. pose proof (good_loop (length l + 2) u l al false G) as L.
    destruct (write_loop _ u l al false) as [[[u1 ok] app]|]; [|exact Logic.I]. destruct (negb ok); [exact L|].
    set (u2 := if app || negb (u_timer u1) then set_timer u1 true else u1).
    assert (G2 : good u2) by (unfold u2; destruct (app || _); exact L).
    destruct app; [|exact G2]. pose proof (good_send u2 a G2) as H. destruct (send u2 a) as [[u3 [|]]|]; exact H.
  - unfold fill. destruct (u_err u); [exact G|].
    assert (FIN : forall u p, good u -> good2 (match store u p l with Some u1 => Some (set_active u1 (u_pos u1) (p + zl l) (u_end u1), true) | None => None end)).
    { intros v p GV. destruct (store v p l) as [v1|] eqn:E; [|exact Logic.I]. exact (good_store _ _ _ _ GV E). }
    destruct (_ <? _); [apply FIN; exact G|]. destruct (_ >? _); [exact G|].
    pose proof (good_flush u a G) as F. destruct (flush u a) as [[u1 ok]|]; [|exact Logic.I]. cbn [good2] in F.
    destruct (negb ok); [exact F|].
    pose proof (acct_get limit size (links u1) (u_q u1) (hd None al) F) as H.
    destruct (bq_get (u_q u1) (hd None al)) as [q [p|] rel|]; [|exact H|exact Logic.I]. apply FIN. exact H.
  - apply good_flush. exact G.
  - apply good_send. exact G.
  - exact G.
  - unfold removed. destruct (_ && _); exact G.
  - exact G.
Qed.
End Steps.
