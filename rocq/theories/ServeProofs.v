(* Writing the periods of a timeline. *)
From Coq Require Import List ZArith Bool Lia ZifyBool ZifyNat.
From Verif Require Import SegListModel SegListSpec SegListProofs SegListProofs2 SegListProofs3 TimelineModel TimelineSpec TimelineProofs TimelineProofs2 TimelineProofs4
  TimelineProofs11 TimelineProofs13 TimelineProofs14 ServeModel ServeSpec.
Import ListNotations.
Local Open Scope Z_scope.

Definition expand (es : list (Z * Z)) : list Z := flat_map (fun e => repeat (fst e) (Z.to_nat (snd e))) es.
Lemma expand_app a b : expand (a ++ b) = expand a ++ expand b.
Proof. apply flat_map_app. Qed.

Lemma map_app_split {A B} (f : A -> B) l : forall x y, map f l = x ++ y -> exists a b, l = a ++ b /\ map f a = x /\ map f b = y.
Proof.
  intros x. revert l. induction x as [|u x IH]; intros l y E; [exists [], l; auto|]. destruct l as [|s l]; [discriminate|]. cbn [map app] in E. injection E as E1 E2. destruct (IH l y E2) as (a & b & -> & XA & XB).
  exists (s :: a), b. split; [reflexivity|]. split; [cbn [map]; congruence|exact XB].
Qed.

Lemma iat_get_element c it s post : wf (cl_list c) -> iat c it (s :: post) ->
  exists n it' a b, cl_get_element c it = Some (s_dur s, n, it') /\ s :: post = a ++ b /\ map s_dur a = repeat (s_dur s) (Z.to_nat n) /\ 1 <= n /\ iat c it' b.
Proof.
  intros W (r & pre & A & B & C). destruct (get_element_ok _ _ _ _ W C) as (r' & n & tail & G & R & N & T). 
  destruct (map_app_split s_dur (s :: post) _ _ T) as (a & b & E & MA & MB). exists n, (to_abs (cl_base c) r'), a, b. unfold cl_get_element. rewrite A, G. split; [reflexivity|]. split; [exact E|]. split; [exact MA|]. split; [exact N|].
  exists r', (pre ++ a). rewrite to_rel_abs, <- app_assoc, <- E, MB. auto.
Qed.

Lemma write_elts_ok c : wf (cl_list c) -> forall fuel it ss post, iat c it (ss ++ post) -> ss <> [] -> (length ss <= fuel)%nat ->
  exists es, write_elts fuel c it (len ss) = Some es /\ expand es = map s_dur ss.
Proof.
  intros W. induction fuel as [|f IH]; intros it ss post I NE F; [destruct ss; [contradiction|cbn in F; lia]|]. destruct ss as [|s ss]; [contradiction|]. cbn [app] in I.
  destruct (iat_get_element c it s (ss ++ post) W I) as (n & it' & a & b & G & E & MA & N & I'). cbn [write_elts]. rewrite G. pose proof (f_equal (@length _) MA) as LA. rewrite map_length, repeat_length in LA.
  destruct (len (s :: ss) <=? n) eqn:C.
  - exists [(s_dur s, len (s :: ss))]. split; [reflexivity|]. cbn [expand flat_map fst snd]. rewrite app_nil_r.
    assert (P : exists q, a = (s :: ss) ++ q). { change (s :: ss ++ post) with ((s :: ss) ++ post) in E. exists (skipn (length (s :: ss)) a). rewrite <- (firstn_skipn (length (s :: ss)) a) at 1. f_equal.
      apply (f_equal (firstn (length (s :: ss)))) in E. rewrite firstn_app, Nat.sub_diag, firstn_all, firstn_O, app_nil_r in E. rewrite firstn_app in E. unfold len in C. replace (length (s :: ss) - length a)%nat with 0%nat in E by lia. rewrite firstn_O, app_nil_r in E. symmetry. exact E. }
    destruct P as (q & ->). rewrite map_app in MA. unfold len. rewrite Nat2Z.id. rewrite <- (map_length s_dur (s :: ss)). apply (f_equal (firstn (length (map s_dur (s :: ss))))) in MA.
    rewrite firstn_app, Nat.sub_diag, firstn_all, firstn_O, app_nil_r in MA. rewrite MA at 2. symmetry. rewrite <- MA. rewrite MA. rewrite firstn_length, repeat_length. clear - LA. rewrite map_length, !app_length in *. cbn [length] in *.
    assert (G : forall k m (x : Z), (k <= m)%nat -> firstn k (repeat x m) = repeat x k). { induction k as [|k IHk]; intros m x L; [reflexivity|]. destruct m as [|m]; [lia|]. cbn [firstn repeat]. f_equal. apply IHk. lia. }
    rewrite G by lia. f_equal. lia.
  - assert (P : exists q, s :: ss = a ++ q /\ b = q ++ post). { change (s :: ss ++ post) with ((s :: ss) ++ post) in E. unfold len in C. exists (skipn (length a) (s :: ss)).
      assert (X : firstn (length a) (s :: ss) = a). { apply (f_equal (firstn (length a))) in E. rewrite !firstn_app, Nat.sub_diag, firstn_all, firstn_O, app_nil_r in E. replace (length a - length (s :: ss))%nat with 0%nat in E by lia. rewrite firstn_O, app_nil_r in E. exact E. }
      split; [rewrite <- X at 1; symmetry; apply firstn_skipn|]. apply (f_equal (skipn (length a))) in E. rewrite !skipn_app, Nat.sub_diag, skipn_all in E. replace (length a - length (s :: ss))%nat with 0%nat in E by lia. cbn [skipn app] in E. symmetry. exact E. }
    destruct P as (q & EQ & ->). rewrite EQ in *. rewrite len_app in *. assert (LN : len a = n) by (unfold len; lia). rewrite LN in *. replace (n + len q - n) with (len q) by lia. rewrite app_length in F.
    destruct (IH it' q post I') as (es & EE & EX); [intros ->; cbn in C; lia|unfold len in LN; lia|]. rewrite EE. exists ((s_dur s, n) :: es). split; [reflexivity|]. change (expand ((s_dur s, n) :: es)) with (repeat (s_dur s) (Z.to_nat n) ++ expand es). rewrite EX, <- MA, map_app. reflexivity.
Qed.

Lemma number_consec i t ss : consecutive i t ss -> number i t (map s_dur ss) = ss.
Proof.
  revert i t. induction ss as [|s ss IH]; intros i t C; [reflexivity|]. destruct C as (<- & <- & C). cbn [map number]. rewrite (IH _ _ C). destruct s. reflexivity.
Qed.
Lemma number_app i t a b : number i t (a ++ b) = number i t a ++ number (i + len a) (t + fold_right Z.add 0 a) b.
Proof.
  revert i t. induction a as [|d a IH]; intros i t; [cbn [app number fold_right]; change (len (@nil Z)) with 0; rewrite !Z.add_0_r; reflexivity|]. cbn [app number fold_right]. rewrite IH, len_cons. rewrite !Z.add_assoc. reflexivity.
Qed.
Lemma sum_fold l : fold_right Z.add 0 (map s_dur l) = sum_dur l.
Proof. induction l as [|s l IH]; [reflexivity|]. cbn [map fold_right sum_dur]. lia. Qed.

Lemma filter_all {A} (f : A -> bool) l : (forall x, In x l -> f x = true) -> filter f l = l.
Proof. induction l as [|x l IH]; intros H; [reflexivity|]. cbn [filter]. rewrite (H x (or_introl eq_refl)). f_equal. apply IH. intros y I. apply H. right. exact I. Qed.
Lemma filter_none {A} (f : A -> bool) l : (forall x, In x l -> f x = false) -> filter f l = [].
Proof. induction l as [|x l IH]; intros H; [reflexivity|]. cbn [filter]. rewrite (H x (or_introl eq_refl)). apply IH. intros y I. apply H. right. exact I. Qed.
Lemma upto_all max pend ss : (forall s, In s ss -> s_index s <= max) -> (pend = true -> forall s, In s ss -> s_index s <> max) -> upto max pend ss = ss.
Proof.
  intros A B. unfold upto. rewrite filter_all by (intros x I; specialize (A x I); lia). rewrite <- (map_id ss) at 2. apply map_ext_in. intros s I. destruct pend; [|reflexivity]. specialize (B eq_refl s I). replace (s_index s =? max) with false by lia. reflexivity.
Qed.
Lemma upto_none max pend ss : (forall s, In s ss -> max < s_index s) -> upto max pend ss = [].
Proof. intros A. unfold upto. rewrite filter_none; [reflexivity|]. intros x I. specialize (A x I). lia. Qed.
Lemma upto_app max pend a b : upto max pend (a ++ b) = upto max pend a ++ upto max pend b.
Proof. unfold upto. rewrite filter_app, map_app. reflexivity. Qed.
Lemma served_cons max pend ss M : upto max pend ss <> [] -> served max pend (ss :: M) = upto max pend ss :: served max pend M.
Proof. intros NE. unfold served. cbn [map filter]. destruct (upto max pend ss); [contradiction|reflexivity]. Qed.
Lemma served_none max pend M : (forall s, In s (concat M) -> max < s_index s) -> served max pend M = [].
Proof.
  induction M as [|ss M IH]; intros A; [reflexivity|]. unfold served. cbn [map filter]. rewrite upto_none by (intros s I; apply A; cbn [concat]; apply in_or_app; left; exact I). cbn [some_segs]. apply IH. intros s I. apply A. cbn [concat]. apply in_or_app. right. exact I.
Qed.

Lemma numbered_mid a x b y : numbered (a ++ x :: b) -> In y b -> s_index x < s_index y.
Proof. intros N I. eapply numbered_lt; eauto. Qed.
Lemma numbered_mid_l a x b y : numbered (a ++ x :: b) -> In y a -> s_index y < s_index x.
Proof. intros N I. apply in_split in I as (u & v & ->). rewrite <- app_assoc in N. cbn [app] in N. eapply numbered_lt; [exact N|]. apply in_elt. Qed.

(* the last segment of a period *)
Lemma consec_last_index i t ss : consecutive i t ss -> ss <> [] -> exists q x, ss = q ++ [x] /\ s_index x = i + len ss - 1.
Proof.
  intros C NE. destruct (exists_last NE) as (q & x & ->). exists q, x. split; [reflexivity|]. apply consec_app in C as [_ C]. cbn [consecutive] in C. rewrite len_app. change (len [x]) with 1. lia.
Qed.
Lemma pok_bounds c p ss s : pok c p ss -> In s ss -> p_key p <= s_index s <= p_key p + p_count p - 1.
Proof. intros P I. pose proof (pok_next _ _ _ _ P I). lia. Qed.

Lemma write_periods_ok c ps max pend : wf (cl_list c) -> NoDup (map p_id ps) -> forall P2 P1 V2 fuel p ss, ps = P1 ++ P2 -> pers c P2 V2 -> pok c p ss -> ss <> [] -> numbered (ss ++ flat V2) ->
  (length P2 < fuel)%nat -> exists bs, write_periods fuel c ps max pend p (head_id P2) = Some bs /\ map block_segs bs = served max pend (ss :: map v_segs V2).
Proof.
  intros W ND. induction P2 as [|q P2 IH]; intros P1 V2 fuel p ss EP PV PK NE NU F; (destruct fuel as [|f]; [lia|]); cbn [write_periods].
  all: pose proof (pok_hd _ _ _ PK NE) as (s0 & r0 & E0 & T0); assert (B : forall s, In s ss -> p_key p <= s_index s <= p_key p + p_count p - 1) by (intros s I; eapply pok_bounds; eauto).
  all: pose proof PK as ((post & IT) & CO & DU & CN); pose proof (len_pos ss NE) as LP; assert (K0 : s_index s0 = p_key p) by (rewrite E0 in CO; apply CO).
  all: assert (LATER : forall s, In s (flat V2) -> p_key p + p_count p <= s_index s)
    by (intros s I; destruct (consec_last_index _ _ _ CO NE) as (qq & x & EX & XI); rewrite EX, <- app_assoc in NU; pose proof (numbered_mid qq x (flat V2) s NU I); lia).
  all: destruct (max <? p_key p) eqn:CM.
  1, 3: exists []; split; [reflexivity|]; symmetry; apply served_none; intros s I; cbn [concat] in I; rewrite concat_segs in I; apply in_app_or in I as [I|I]; [specialize (B s I); lia|specialize (LATER s I); lia].
  all: assert (CUT : max <= p_key p + p_count p - 1 -> exists a x b, ss = a ++ x :: b /\ s_index x = max /\ len a = max - p_key p) by (intros L; apply (pok_split c p ss max PK); lia).
  all: destruct ((max <=? p_key p + p_count p - 1) && pend) eqn:HIT.
  1, 3: apply andb_prop in HIT as [L ->]; destruct (CUT ltac:(lia)) as (a & x & b & ES & XI & LA); rewrite ES, <- app_assoc in NU; cbn [app] in NU;
    assert (UP : upto max true ss = a ++ [mk_seg (s_index x) (s_time x) 0])
      by (rewrite ES, upto_app; rewrite (upto_all max true a) by (try (intros _); intros s I; pose proof (numbered_mid_l _ _ _ _ NU I); lia); f_equal;
          change (x :: b) with ([x] ++ b); rewrite upto_app, (upto_none max true b) by (intros s I; pose proof (numbered_mid a x (b ++ flat V2) s NU ltac:(apply in_or_app; left; exact I)); lia);
          unfold upto; cbn [filter map app andb]; replace (s_index x <=? max) with true by lia; cbn [map andb]; replace (s_index x =? max) with true by lia; reflexivity);
    rewrite served_cons by (rewrite UP; destruct a; discriminate); rewrite UP, served_none by (intros s I; rewrite concat_segs in I; specialize (LATER s I); lia);
    rewrite ES in CO; apply consec_app in CO as [CA (CX1 & CX2 & _)];
    (destruct (max <=? p_key p) eqn:C0;
     [assert (a = []) as -> by (apply len_zero; lia); eexists; split; [reflexivity|]; cbn [map]; unfold block_segs; cbn [sb_index sb_time sb_elts flat_map fst snd Z.to_nat Pos.to_nat Pos.iter_op repeat app number]; rewrite CX1, CX2; change (sum_dur []) with 0; change (len (@nil seg)) with 0; rewrite !Z.add_0_r; reflexivity
     |rewrite ES, <- app_assoc in IT; cbn [app] in IT; destruct (write_elts_ok c W (Z.to_nat (max - p_key p)) (p_iter p) a ((x :: b) ++ post)) as (es & EE & EX); [exact IT|intros ->; change (len (@nil seg)) with 0 in LA; lia|unfold len in LA; lia|];
      replace (max - 1 - p_key p + 1) with (len a) by lia; rewrite EE; eexists; split; [reflexivity|]; cbn [map]; f_equal; unfold block_segs; cbn [sb_index sb_time sb_elts];
      change (flat_map (fun e : Z * Z => repeat (fst e) (Z.to_nat (snd e))) (es ++ [(0, 1)])) with (expand (es ++ [(0, 1)])); rewrite expand_app, EX, number_app, (number_consec _ _ _ CA), sum_fold; f_equal; unfold len; rewrite map_length; fold (len a); cbn [expand flat_map fst snd Z.to_nat Pos.to_nat Pos.iter_op repeat app number]; rewrite CX1, CX2; reflexivity]).
  all: set (last := if max <=? p_key p + p_count p - 1 then max else p_key p + p_count p - 1);
    assert (SPL : exists a b, ss = a ++ b /\ a <> [] /\ len a = last - p_key p + 1 /\ upto max pend ss = a)
      by (unfold last; destruct (max <=? p_key p + p_count p - 1) eqn:L;
          [cbn [andb] in HIT; destruct (CUT ltac:(lia)) as (a & x & b & ES & XI & LA); exists (a ++ [x]), b; rewrite ES, <- app_assoc in NU; cbn [app] in NU; cbn [andb] in HIT; subst pend;
           split; [rewrite ES, <- app_assoc; reflexivity|]; split; [destruct a; discriminate|]; split; [rewrite len_app; change (len [x]) with 1; lia|]; rewrite ES; change (x :: b) with ([x] ++ b); rewrite app_assoc, upto_app, (upto_none max false b) by (intros s I; pose proof (numbered_mid a x (b ++ flat V2) s NU ltac:(apply in_or_app; left; exact I)); lia);
           rewrite app_nil_r; apply upto_all; [|discriminate]; intros s I; apply in_app_or in I as [I|[<-|[]]]; [pose proof (numbered_mid_l _ _ _ _ NU I); lia|lia]
          |exists ss, []; rewrite app_nil_r; split; [reflexivity|]; split; [exact NE|]; split; [lia|]; apply upto_all; [|intros _]; intros s I; specialize (B s I); lia]);
    destruct SPL as (a & b & ES & NA & LA & UP); rewrite ES, <- app_assoc in IT;
    destruct (write_elts_ok c W (Z.to_nat (last - p_key p + 1)) (p_iter p) a (b ++ post) IT NA) as (es & EE & EX); [unfold len in LA; lia|]; rewrite <- LA in EE |- *; rewrite EE; rewrite served_cons by (rewrite UP; exact NA); rewrite UP;
    assert (BS : block_segs (mk_sb (p_time p) (p_key p) es) = a) by (unfold block_segs; cbn [sb_index sb_time sb_elts]; fold (expand es); rewrite EX; apply number_consec; rewrite ES in CO; apply consec_app in CO; apply CO).
  - inversion PV; subst V2. eexists. split; [reflexivity|]. cbn [map]. rewrite BS. reflexivity.
  - inversion PV as [|? v ? V3 (RQ & NV & _) PV3]; subst. cbn [head_id]. rewrite (deref_mid P1 q P2 ND). rewrite flat_cons, app_assoc in NU. apply numbered_app_r in NU as NU'.
    assert (NU2 : numbered (v_segs v ++ flat V3)). { rewrite <- app_assoc in NU. eapply numbered_app_r. exact NU. }
    destruct (IH (P1 ++ [q]) V3 f q (v_segs v)) as (bs & EB & MB); [rewrite <- app_assoc; reflexivity|exact PV3|exact RQ|exact NV|exact NU2|cbn [length] in F; lia|]. rewrite EB. eexists. split; [reflexivity|]. cbn [map]. rewrite BS, MB. reflexivity.
Qed.
