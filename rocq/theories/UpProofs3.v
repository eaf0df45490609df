(* Every event of an RTMP upstream. *)

From Coq Require Import List ZArith Lia Bool Arith Permutation.
From Coq Require Import ZifyBool ZifyNat.
From Verif Require Import BufQueueModel BufQueueSpec BufQueueProofs UpModel UpSpec UpProofs UpProofs2.
Import ListNotations.
Open Scope Z_scope.

Definition prefix_of (a b : list Z) : Prop := exists s, b = a ++ s.

Lemma write_loop_ok size : forall fuel u l al app,
  inv size u -> all_apart size (somes al ++ held (u_q u)) ->
  (length l + (if (u_last u =? u_end u)%Z then 2 else 1) <= fuel)%nat ->
  exists u' ok app', write_loop fuel u l al app = Some (u', ok, app') /\ inv size u' /\ outer u' = outer u /\ u_done u' = u_done u /\
    exists pre, prefix_of pre l /\ data u' = data u ++ pre /\ (ok = true -> pre = l) /\ u_wire u' = u_wire u.
Proof.
  induction fuel as [|fuel IH]; intros u l al app I AP HF.
  { destruct (u_last u =? u_end u); lia. }
  destruct l as [|z l0].
  { cbn [write_loop]. do 3 eexists. split; [reflexivity|]. split; [exact I|]. do 2 (split; [reflexivity|]).
    exists []. rewrite app_nil_r. split; [exists []; reflexivity|]. auto. }
  set (l := z :: l0) in *.
  assert (EW : write_loop (S fuel) u l al app =
    let left := u_end u - u_last u in
          if left >? zl l then
            match store u (u_last u) l with
            | Some u1 => Some (set_active u1 (u_pos u1) (u_last u1 + zl l) (u_end u1), true, app)
            | None => None
            end
          else
            match store u (u_last u) (firstn (Z.to_nat left) l) with
            | Some u1 =>
                let '(u2, ok) := append (set_active u1 (u_pos u1) (u_end u1) (u_end u1)) in
                if negb ok then Some (u2, false, app)
                else
                  match bq_get (u_q u2) (hd None al) with
                  | BqOk q (Some p) _ =>
                      write_loop fuel (set_active (set_q u2 q) p p (p + (bq_alloc_size q - node_size)))
                        (skipn (Z.to_nat left) l) (tl al) true
                  | BqOk q None _ => Some (set_q u2 q, false, app)
                  | BqUB => None
                  end
            | None => None
            end) by reflexivity.
  rewrite EW. clear EW. cbv zeta. pose proof (inv_le size u I) as LE. pose proof I as (_ & I2 & _).
  destruct (u_end u - u_last u >? zl l) eqn:C.
  - destruct (put_ok size u l I ltac:(lia)) as (E & J1 & J2). rewrite E.
    do 3 eexists. split; [reflexivity|]. split; [exact J1|]. do 2 (split; [reflexivity|]).
    exists l. split; [exists []; rewrite app_nil_r; reflexivity|]. split; [exact J2|]. auto.
  - set (left := u_end u - u_last u) in *. set (hdl := firstn (Z.to_nat left) l).
    assert (LH : zl hdl = left). { unfold hdl, zl in *. rewrite firstn_length. lia. }
    destruct (put_ok size u hdl I ltac:(lia)) as (E & J1 & J2). rewrite E. rewrite LH in J1, J2.
    replace (u_last u + left) with (u_end u) in J1, J2 by lia.
    cbn [set_mem u_pos u_end].
    set (u1 := set_active (set_mem u (wr (u_mem u) (u_last u) hdl)) (u_pos u) (u_end u) (u_end u)) in *.
    pose proof (append_ok size u1 J1) as A. destruct (append u1) as [u2 ok].
    destruct A as (A1 & A2 & A3 & A4 & A5 & A6 & A7 & A8 & A9 & A10 & A11).
    assert (PF : prefix_of hdl l) by (exists (skipn (Z.to_nat left) l); symmetry; apply firstn_skipn).
    destruct ok; cbn [negb].
    + specialize (A10 eq_refl) as (A10 & _).
      pose proof A1 as (B1 & _ & _ & B4 & _).
      pose proof (get_ok (u_q u2) al) as G. rewrite B1, A7 in G. specialize (G AP B4).
      destruct (bq_get (u_q u2) (hd None al)) as [q [p|] rel|].
      * destruct G as (n & -> & G2 & G3 & G4 & G5 & G6).
        set (u3 := set_active (set_q u2 q) (n + 8) (n + 8) (n + 8 + (bq_alloc_size q - node_size))).
        destruct (activate_ok size u2 q n A1 A10 G2 ltac:(congruence) G4 G6 u3) as (K1 & K2); try reflexivity.
        { unfold u3. cbn [set_active u_end]. rewrite G3. reflexivity. }
        assert (LS : (length (skipn (Z.to_nat left) l) = length l - Z.to_nat left)%nat) by apply skipn_length.
        destruct (IH u3 (skipn (Z.to_nat left) l) (tl al) true K1 G5) as (u' & ok' & app' & W1 & W2 & W3 & W4 & pre & W5 & W6 & W7 & W8).
        { rewrite LS. unfold u3 at 1 2. cbn [set_active u_last u_end]. unfold node_size. rewrite G3.
          replace (n + 8 =? n + 8 + (size - 8)) with false by lia.
          destruct (u_last u =? u_end u) eqn:CE; [lia|]. unfold left, l in *. cbn [length] in *. lia. }
        exists u', ok', app'. split; [exact W1|]. split; [exact W2|].
        split; [rewrite W3; change (outer u3) with (outer u2); rewrite A4; reflexivity|].
        split; [rewrite W4; change (u_done u3) with (u_done u2); rewrite A5; reflexivity|].
        exists (hdl ++ pre). split; [|split; [|split]].
        -- destruct W5 as (s & W5). exists s. rewrite <- app_assoc, <- W5. unfold hdl. symmetry. apply firstn_skipn.
        -- rewrite W6, K2, A2, J2, app_assoc. reflexivity.
        -- intros HO. rewrite (W7 HO). unfold hdl. apply firstn_skipn.
        -- rewrite W8. change (u_wire u3) with (u_wire u2). rewrite A3. reflexivity.
      * subst q. do 3 eexists. split; [reflexivity|]. replace (set_q u2 (u_q u2)) with u2 by (destruct u2; reflexivity).
        split; [exact A1|]. split; [rewrite A4; reflexivity|]. split; [rewrite A5; reflexivity|].
        exists hdl. split; [exact PF|]. split; [rewrite A2; exact J2|]. split; [discriminate|]. rewrite A3. reflexivity.
      * contradiction.
    + do 3 eexists. split; [reflexivity|]. split; [exact A1|]. split; [rewrite A4; reflexivity|]. split; [rewrite A5; reflexivity|].
      exists hdl. split; [exact PF|]. split; [rewrite A2; exact J2|]. split; [discriminate|]. rewrite A3. reflexivity.
Qed.

Lemma outer_eq u u' : outer u' = outer u -> u_err u' = u_err u /\ u_none u' = u_none u /\ u_timer u' = u_timer u.
Proof. unfold outer. intros E. injection E. auto. Qed.

(* an event leaves the invariant intact, and adds its bytes *)
Definition adds (u : up) (l : list Z) (ok : bool) (u' : up) : Prop :=
  exists pre, prefix_of pre l /\ data u' = data u ++ pre /\ (u_err u' = false -> pre = l) /\ (ok = true -> pre = l) /\
    (u_err u = true -> pre = [] /\ u_err u' = true).

Lemma flush_ok size u a : inv size u -> exists u' ok, flush u a = Some (u', ok) /\ inv size u' /\ data u' = data u /\ outer u' = outer u /\
  (ok = true -> u_pos u' = u_last u') /\ u_last u' = u_last u /\ u_end u' = u_end u /\
  (u_done u' = true -> u_done u = true \/ (u_busy u' = [] /\ u_pos u' = u_last u' /\ u_none u = true)) /\
  (forall l, all_apart size (l ++ held (u_q u)) -> all_apart size (l ++ held (u_q u'))) /\
  (forall k, a = Takes k -> ok = true -> zl (pending u) <= k -> pending u' = []) /\
  (exists o, u_wire u' = u_wire u ++ o).
Proof.
  intros I. unfold flush. pose proof (append_ok size u I) as A. destruct (append u) as [u1 ok1].
  destruct A as (A1 & A2 & A3 & A4 & A5 & A6 & A7 & A8 & A9 & A10 & A11).
  destruct ok1; cbn [negb].
  - specialize (A10 eq_refl) as (A10 & A12).
    assert (G : exists u' ok, send u1 a = Some (u', ok) /\ inv size u' /\ data u' = data u /\ outer u' = outer u /\ (ok = true -> u_pos u' = u_last u') /\ u_last u' = u_last u /\ u_end u' = u_end u /\
      (u_done u' = true -> u_done u = true \/ (u_busy u' = [] /\ u_pos u' = u_last u' /\ u_none u = true)) /\
      (forall l, all_apart size (l ++ held (u_q u)) -> all_apart size (l ++ held (u_q u'))) /\
      (forall k, a = Takes k -> ok = true -> zl (pending u) <= k -> pending u' = []) /\ (exists o, u_wire u' = u_wire u ++ o)).
    { destruct (send_ok size u1 a A1) as (u' & ok & S1 & S2 & S3 & S4 & S5 & S6 & S7 & S8 & S9 & S10 & S11 & S12).
      exists u', ok. split; [exact S1|]. split; [exact S2|]. split; [congruence|]. split; [congruence|]. split; [intros _; congruence|].
      split; [congruence|]. split; [congruence|]. split.
      - intros HD. destruct (S9 HD) as [HD'|(H1 & H2 & H3)]; [left; congruence|right]. split; [exact H1|]. split; [congruence|].
        destruct (outer_eq u u1 A4) as (_ & <- & _). exact H3.
      - split; [intros l HA; apply S10; rewrite A7; exact HA|]. split; [|rewrite <- A3; exact S12].
        intros k HK HO HZ. rewrite pending_flat. rewrite (S11 k HK HO) by (rewrite A12; exact HZ). cbn [flat flat_map app]. apply rd_nil. lia. }
    destruct a as [|k|]; [|exact G|exact G].
    do 2 eexists. split; [reflexivity|]. split; [exact A1|]. split; [congruence|]. split; [congruence|]. split; [intros _; exact A10|].
    split; [congruence|]. split; [congruence|]. split; [left; congruence|]. split; [rewrite A7; auto|]. split; [discriminate|].
    exists []. rewrite app_nil_r. congruence.
  - rewrite (A11 eq_refl) in *. do 2 eexists. split; [reflexivity|]. split; [exact I|]. do 2 (split; [reflexivity|]). split; [discriminate|].
    do 2 (split; [reflexivity|]). split; [auto|]. split; [auto|]. split; [discriminate|]. exists []. rewrite app_nil_r. reflexivity.
Qed.

(* the timer runs while the active buffer holds bytes *)
Definition timed (u : up) : Prop := u_pos u < u_last u -> u_timer u = true.

Definition done_ok (u u' : up) : Prop := u_done u' = true -> u_done u = true \/ pending u' = [].

Lemma op_ok size u op : inv size u -> uop_ok u op -> exists u' ok, up_op u op = Some (u', ok) /\ inv size u' /\ adds u (asked op) ok u' /\
  (ok = true -> timed u -> timed u') /\
  (match op with UFill _ _ a => u_none u = false \/ a = Idle | UOther _ => False | _ => True end -> done_ok u u').
Proof.
  intros I OK. pose proof I as (I1 & I2 & _).
  assert (NOADD : forall u' ok, data u' = data u -> u_err u' = u_err u -> adds u [] ok u').
  { intros u' ok HD HE. exists []. rewrite app_nil_r. split; [exists []; reflexivity|]. split; [exact HD|]. split; [auto|]. split; [auto|]. intros. split; [reflexivity|congruence]. }
  destruct op as [l al a|l al a|a|a| |none|mem]; cbn [up_op asked uop_ok] in *.
  - (* write *)
    unfold write. destruct (u_err u) eqn:EE.
    { do 2 eexists. split; [reflexivity|]. split; [exact I|]. split; [|split; [discriminate|intros _ HD; auto]].
      exists []. rewrite app_nil_r. split; [exists l; reflexivity|]. split; [reflexivity|]. split; [congruence|]. split; [discriminate|]. auto. }
    rewrite I1 in OK.
    destruct (write_loop_ok size (length l + 2) u l al false I OK) as (u1 & ok & app & W1 & W2 & W3 & W4 & pre & W5 & W6 & W7 & W8).
    { destruct (u_last u =? u_end u); lia. }
    rewrite W1. destruct (outer_eq u u1 W3) as (O1 & O2 & O3). destruct ok; cbn [negb].
    + rewrite (W7 eq_refl) in *.
      set (u2 := if app || negb (u_timer u1) then set_timer u1 true else u1).
      assert (I2' : inv size u2) by (unfold u2; destruct (app || _); exact W2).
      assert (D2 : data u2 = data u ++ l) by (unfold u2; destruct (app || _); exact W6).
      assert (T2 : u_timer u2 = true). { unfold u2. destruct app; [reflexivity|]. destruct (u_timer u1) eqn:ET; cbn; [exact ET|reflexivity]. }
      assert (E2 : u_err u2 = false) by (unfold u2; destruct (app || _); cbn; congruence).
      assert (DN2 : u_done u2 = u_done u) by (unfold u2; destruct (app || _); exact W4).
      destruct app.
      * destruct (send_ok size u2 a I2') as (u3 & ok3 & S1 & S2 & S3 & S4 & S5 & S6 & S7 & S8 & S9 & S10 & S11 & S12). rewrite S1.
        destruct (outer_eq u2 u3 S4) as (P1 & P2 & P3).
        assert (DN : done_ok u u3).
        { intros HD. destruct (S9 HD) as [H|(H1 & H2 & _)]; [left; congruence|right]. rewrite pending_flat, H1. cbn [flat flat_map app]. apply rd_nil. clear - H2 S5 S6. lia. }
        destruct ok3; do 2 eexists; (split; [reflexivity|]).
        -- split; [exact S2|]. split; [|split; [intros _ _ _; congruence|intros _; exact DN]].
           exists l. split; [exists []; rewrite app_nil_r; reflexivity|]. split; [congruence|]. split; [auto|]. split; [auto|]. congruence.
        -- split; [exact S2|]. split; [|split; [discriminate|intros _; exact DN]].
           exists l. split; [exists []; rewrite app_nil_r; reflexivity|]. split; [change (data (set_err u3)) with (data u3); congruence|]. split; [auto|]. split; [auto|]. congruence.
      * do 2 eexists. split; [reflexivity|]. split; [exact I2'|]. split; [|split; [intros _ _ _; exact T2|intros _ HD; left; congruence]].
        exists l. split; [exists []; rewrite app_nil_r; reflexivity|]. split; [exact D2|]. split; [auto|]. split; [auto|]. congruence.
    + do 2 eexists. split; [reflexivity|]. split; [exact W2|]. split; [|split; [discriminate|intros _ HD; left; change (u_done (set_err u1)) with (u_done u1) in HD; congruence]].
      exists pre. split; [exact W5|]. split; [exact W6|]. split; [discriminate|]. split; [discriminate|]. congruence.
  - (* fill *)
    unfold fill. destruct (u_err u) eqn:EE.
    { do 2 eexists. split; [reflexivity|]. split; [exact I|]. split; [|split; [discriminate|intros _ HD; auto]].
      exists []. rewrite app_nil_r. split; [exists l; reflexivity|]. split; [reflexivity|]. split; [congruence|]. split; [discriminate|]. auto. }
    destruct (zl l <? u_end u - u_last u) eqn:C1.
    { destruct (put_ok size (set_timer u true) l I ltac:(cbn; lia)) as (E & J1 & J2). cbn [set_timer u_last] in E. rewrite E.
      do 2 eexists. split; [reflexivity|]. split; [exact J1|]. split; [|split; [intros _ _ _; reflexivity|intros _ HD; left; exact HD]].
      exists l. split; [exists []; rewrite app_nil_r; reflexivity|]. split; [exact J2|]. split; [auto|]. split; [auto|]. congruence. }
    assert (FAIL : forall u1, inv size u1 -> data u1 = data u -> inv size (set_err u1) /\ adds u l false (set_err u1)).
    { intros u1 HI HD. split; [exact HI|]. exists []. rewrite app_nil_r. split; [exists l; reflexivity|]. split; [exact HD|]. split; [discriminate|]. split; [discriminate|]. congruence. }
    rewrite I1 in *. destruct (zl l >? size - node_size) eqn:C2.
    { do 2 eexists. split; [reflexivity|]. destruct (FAIL u I eq_refl) as (F1 & F2). split; [exact F1|]. split; [exact F2|]. split; [discriminate|]. intros _ HD; left; exact HD. }
    destruct (flush_ok size u a I) as (u1 & ok & E & J1 & J2 & J3 & J4 & J5 & J6 & J7 & J8 & J9 & J10). rewrite E.
    destruct (outer_eq u u1 J3) as (O1 & O2 & O3).
    assert (DF : u_none u = false \/ a = Idle -> u_done u1 = true -> u_done u = true).
    { intros HN HD. destruct (J7 HD) as [H|(_ & _ & H)]; [exact H|]. destruct HN as [HN| ->]; [congruence|].
      unfold flush in E. pose proof (append_ok size u I) as AA. destruct (append u) as [ua oka]. destruct AA as (_ & _ & _ & _ & AA & _).
      destruct oka; cbn [negb] in E; injection E as <- <-; congruence. }
    destruct ok; cbn [negb].
    + specialize (J4 eq_refl). pose proof J1 as (B1 & _ & _ & B4 & _).
      pose proof (get_ok (u_q u1) al) as G. rewrite B1 in G. specialize (G (J8 _ OK) B4).
      destruct (bq_get (u_q u1) (hd None al)) as [q [p|] rel|].
      * destruct G as (n & -> & G2 & G3 & G4 & G5 & G6).
        set (ux := set_active (set_timer (set_active (set_q u1 q) (n + 8) (u_last u1) (n + 8 + (bq_alloc_size q - node_size))) true) (n + 8) (n + 8) (n + 8 + (size - 8))).
        destruct (activate_ok size u1 q n J1 J4 G2 ltac:(congruence) G4 G6 ux) as (K1 & K2); try reflexivity.
        destruct (put_ok size ux l K1 ltac:(cbn; unfold node_size in *; lia)) as (E' & L1 & L2).
        unfold store in *. cbn [set_timer set_active set_q u_q u_mem u_last] in *.
        set (cond := (zl l =? 0) || _) in *. change (u_mem ux) with (u_mem u1) in E', L1, L2. change (u_last ux) with (n + 8) in E', L1, L2.
        destruct cond; [|discriminate].
        do 2 eexists. split; [reflexivity|].
        match goal with |- inv size ?x /\ _ => assert (EQ : x = set_active (set_mem ux (wr (u_mem u1) (n + 8) l)) (u_pos ux) (n + 8 + zl l) (u_end ux)) end.
        { unfold ux. cbn [set_mem set_timer set_active set_q u_pos u_end u_mem u_q]. rewrite G3. reflexivity. }
        rewrite EQ. split; [exact L1|]. split; [|split; [intros _ _ _; reflexivity|]].
        -- exists l. split; [exists []; rewrite app_nil_r; reflexivity|]. split; [rewrite L2, K2, J2; reflexivity|]. split; [auto|]. split; [auto|]. congruence.
        -- intros HN HD. left. apply (DF HN). exact HD.
      * subst q. do 2 eexists. split; [reflexivity|]. replace (set_q u1 (u_q u1)) with u1 by (destruct u1; reflexivity).
        destruct (FAIL u1 J1 J2) as (F1 & F2). split; [exact F1|]. split; [exact F2|]. split; [discriminate|]. intros HN HD; left; apply (DF HN); exact HD.
      * contradiction.
    + do 2 eexists. split; [reflexivity|]. destruct (FAIL u1 J1 J2) as (F1 & F2). split; [exact F1|]. split; [exact F2|]. split; [discriminate|].
      intros HN HD; left; apply (DF HN); exact HD.
  - (* flush timer *)
    destruct (flush_ok size (set_timer u false) a I) as (u1 & ok & E & J1 & J2 & J3 & J4 & J5 & J6 & J7 & J8 & J9 & J10).
    do 2 eexists. split; [exact E|]. split; [exact J1|]. destruct (outer_eq _ _ J3) as (O1 & _).
    split; [apply NOADD; [exact J2|exact O1]|]. split; [intros HO _ H; specialize (J4 HO); clear - H J4; lia|].
    intros _ HD. destruct (J7 HD) as [H|(H1 & H2 & _)]; [left; exact H|right]. rewrite pending_flat, H1. cbn [flat flat_map app]. apply rd_nil. clear - H2. lia.
  - (* ready *)
    destruct (send_ok size u a I) as (u1 & ok & E & S2 & S3 & S4 & S5 & S6 & S7 & S8 & S9 & S10 & S11 & S12).
    destruct (outer_eq _ _ S4) as (O1 & _ & O3).
    do 2 eexists. split; [exact E|]. split; [exact S2|]. split; [apply NOADD; [exact S3|exact O1]|].
    split; [intros _ HT H; rewrite O3; apply HT; clear - H S5 S6; lia|].
    intros _ HD. destruct (S9 HD) as [H|(H1 & H2 & _)]; [left; exact H|right]. rewrite pending_flat, H1. cbn [flat flat_map app]. apply rd_nil. clear - H2 S5 S6. lia.
  - do 2 eexists. split; [reflexivity|]. split; [exact I|]. split; [apply NOADD; reflexivity|]. split; [intros _ H; exact H|]. intros _ HD. left. exact HD.
  - do 2 eexists. split; [reflexivity|]. unfold removed. set (u1 := set_none u none).
    destruct (none && match u_busy u with [] => true | _ => false end && (u_last u <=? u_pos u)) eqn:C.
    + split; [exact I|]. split; [apply NOADD; reflexivity|]. split; [intros _ H; exact H|]. intros _ HD. right.
      change (pending (set_done u1)) with (pending u). rewrite pending_flat.
      destruct (u_busy u); [|rewrite andb_false_r in C; discriminate]. cbn [flat flat_map app]. apply rd_nil. clear - C. lia.
    + split; [exact I|]. split; [apply NOADD; reflexivity|]. split; [intros _ H; exact H|]. intros _ HD. left. exact HD.
  - (* memory that is not used here changes *)
    do 2 eexists. split; [reflexivity|]. split; [exact I|]. split; [|split; [intros _ H; exact H|contradiction]].
    apply NOADD; [|reflexivity]. unfold data. rewrite !pending_flat. cbn [set_mem u_wire u_mem u_busy u_pos u_last]. f_equal.
    pose proof I as (_ & _ & _ & _ & I5 & I6 & _). f_equal.
    + apply flat_ext. intros r x HR HX. apply OK. destruct (placed_in _ _ _ _ I5 HR) as (n & N1 & N2).
      exists n. split; [exact N1|]. unfold in_node in N2. lia.
    + apply rd_ext. intros x HX. apply OK. destruct I6 as [(_ & ? & ? & ?)|(us & n & J0 & J1 & J2 & J3)]; [lia|].
      exists n. rewrite J0. split; [apply in_or_app; right; left; reflexivity|]. lia.
Qed.
