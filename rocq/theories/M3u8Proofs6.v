(* The segments of a period, one by one. *)
From Coq Require Import String Ascii ZArith List Bool Lia ZifyBool.
From Verif Require Import Bytes M3u8Model M3u8Spec M3u8Proofs M3u8Proofs2 M3u8Proofs4 M3u8Proofs5.
Import ListNotations.
Open Scope Z_scope.


Lemma tracks_sinfo c : tracks_ok c -> Forall sinfo_ok (c_tracks c).
Proof. intros [_ H]. eapply Forall_impl; [|exact H]. cbn. tauto. Qed.
Lemma tracks_minfo c : tracks_ok c -> Forall minfo_ok (c_tracks c).
Proof. intros [_ H]. eapply Forall_impl; [|exact H]. cbn. tauto. Qed.
Lemma tracks_parts c : tracks_ok c -> Forall tparts_ok (c_tracks c).
Proof. intros [_ H]. eapply Forall_impl; [|exact H]. cbn. tauto. Qed.

Definition at_seg (c : channel) (i t : Z) (s : wst) : Prop :=
  w_index s = i /\ w_time s = t /\ w_start s = ms_of c t /\ w_parts s = left_at c i
  /\ Forall2 (lag i) (c_tracks c) (w_bi s).

Definition knows (s : wst) (q : player) : Prop := w_last s = 0 \/ y_rate q = Some (w_last s).

Definition clean (x : next) : Prop := x_gap x = false /\ x_parts x = [].

Definition rate_of (c : channel) (es : list est) (i t0 t1 : Z) : option Z :=
  total_rate i (ms_of c t1 - ms_of c t0) (c_tracks c) es.

Definition after_seg (f : conf) (c : channel) (es : list est) (i t0 t1 : Z) (q : player) : player :=
  {| y_info := y_info q; y_next := next0; y_map := y_map q;
     y_rate := known (y_rate q) (rate_of c es i t0 t1);
     y_segs := y_segs q ++ [{| s_uri := seg_uri f c i; s_ms := ms_of c t1 - ms_of c t0;
        s_discontinuity := x_discontinuity (y_next q); s_gap := gap_at i c;
        s_date := x_date (y_next q); s_map := y_map q;
        s_rate := known (y_rate q) (rate_of c es i t0 t1); s_parts := parts_of f c i t0 |}];
     y_hint := orelse (hint_in f c i) (y_hint q); y_reports := y_reports q |}.

Lemma plays_eq s a b s' : plays s a s' -> a = b -> plays s b s'.
Proof. intros H <-. exact H. Qed.

Lemma Forall2_lag_le i j ts its : i <= j -> Forall2 (lag i) ts its -> Forall2 (lag j) ts its.
Proof. intros H F. induction F; constructor; [eapply lag_le; eassumption | assumption]. Qed.

Lemma seg_step_plays f c es s q i t d :
  chan_ok f c -> tracks_ok c -> at_seg c i t s -> knows s q -> clean (y_next q) ->
  0 < d < 2 ^ 32 -> 0 <= i < INVALID_INDEX ->
  total_ok c es i (ms_of c (t + d) - ms_of c t) ->
  let s' := seg_step (scale c) (seg_suffix f c) es d s in
  exists o, w_out s' = w_out s ++ o
  /\ plays q o (after_seg f c es i t (t + d) q)
  /\ at_seg c (i + 1) (t + d) s' /\ knows s' (after_seg f c es i t (t + d) q).
Proof.
  intros CO TO (A1 & A2 & A3 & A4 & A5) K [C1 C2] D I T s'.
  pose proof (ms_step c t d (scale_pos _ _ CO) ltac:(lia)) as M.
  unfold s', seg_step. rewrite A1, A2, A3, A4. clear s'.
  change ((t + d) / scale c) with (ms_of c (t + d)). rewrite u32_small by lia.
  destruct (segment_info_spec c es i (ms_of c (t + d) - ms_of c t) (w_bi s) (tracks_sinfo _ TO) A5 T) as (bi & -> & LB).
  pose proof (gap_rate c es i (ms_of c (t + d) - ms_of c t) T) as GR.
  set (dm := ms_of c (t + d) - ms_of c t) in *.
  set (rate := match total_rate i dm (c_tracks c) es with Some v => v | None => 1 end) in *.
  rewrite GR.
  set (tagged := negb (gap_at i c) && negb (kbps rate =? NO_BITRATE) && negb (kbps rate =? w_last s)).
  cbn [w_out w_index w_time w_start w_last w_parts w_bi].
  (* what the rate means *)
  assert (0 <= rate < 2 ^ 32) as RR.
  { unfold rate, total_ok in *. destruct (gap_at i c) eqn:G.
    - unfold gap_at in G. rewrite (gap_total0 _ _ _ _ G). lia.
    - destruct (total_rate i dm (c_tracks c) es); [specialize (T eq_refl); lia | lia]. }
  assert (0 <= kbps rate < 2 ^ 32) as RK.
  { unfold kbps. destruct (rate >? 1000) eqn:E; [|lia]. split; [apply Z.div_pos; lia|]. apply Z.div_lt_upper_bound; lia. }
  assert (rate_of c es i t (t + d) = total_rate i dm (c_tracks c) es) as RO by reflexivity.
  assert (forall b, known b (rate_of c es i t (t + d)) =
    if negb (gap_at i c) && negb (kbps rate =? NO_BITRATE) then Some (kbps rate) else b) as KN.
  { intros b. rewrite RO. unfold known. unfold total_ok in T. unfold kbps, rate, NO_BITRATE in *. 
    destruct (total_rate i dm (c_tracks c) es) as [v|] eqn:Ev.
    - destruct (gap_at i c) eqn:G; cbn [negb andb].
      + unfold gap_at in G. rewrite (gap_total0 _ _ _ _ G) in Ev. injection Ev as <-. reflexivity.
      + specialize (T eq_refl). destruct (2000 <=? v) eqn:E2.
        * assert (v >? 1000 = true) as -> by lia.
          assert (v / 1000 =? 1 = false) as ->; [|reflexivity].
          apply Z.eqb_neq. assert (2 <= v / 1000) by (apply Z.div_le_lower_bound; lia). lia.
        * destruct (v >? 1000) eqn:E3; [|reflexivity]. assert (v / 1000 = 1) as ->; [|reflexivity].
          symmetry. apply Z.div_unique with (v - 1000); lia.
    - cbn. destruct (gap_at i c); reflexivity. }
  assert (known (y_rate q) (rate_of c es i t (t + d)) = if tagged then Some (kbps rate) else y_rate q) as KN2.
  { rewrite KN. unfold tagged. destruct (negb (gap_at i c) && negb (kbps rate =? NO_BITRATE)) eqn:E; cbn [andb]; [|reflexivity].
    destruct (kbps rate =? w_last s) eqn:E2; cbn [negb]; [|reflexivity].
    destruct K as [K|K].
    - exfalso. apply andb_true_iff in E. destruct E as [E3 E4]. assert (kbps rate = 0) as X by lia. unfold kbps in X.
      destruct (rate >? 1000) eqn:E5; [|lia]. assert (1 <= rate / 1000) by (apply Z.div_le_lower_bound; lia). lia.
    - rewrite K. f_equal. lia. }
  eexists. split; [reflexivity|]. split; [|split].
  - eapply plays_eq.
    + eapply plays_app; [apply (plays_here f c q i t CO (tracks_parts _ TO)); lia|].
      eapply plays_app; [apply (plays_extinf _ dm); lia|].
      eapply plays_app.
      { instantiate (2 := if gap_at i c then str "#EXT-X-GAP" ++ [nl] else if tagged then str "#EXT-X-BITRATE:" ++ dec (kbps rate) ++ [nl] else []).
        instantiate (1 := let p := set_next (with_ms dm (y_next (add_parts (parts_of f c i t) (hint_in f c i) q))) (add_parts (parts_of f c i t) (hint_in f c i) q) in
          if gap_at i c then on_gap p else if tagged then set_rate (kbps rate) p else p).
        cbv zeta. destruct (gap_at i c); [apply plays_gap|]. destruct tagged; [apply plays_rate; exact RK | apply plays_nil]. }
      cbv zeta.
      eassert (plays _ _ _) as X.
      { apply (plays_uri _ (i + 1) (selector c ++ f_seg_ext f) dm); [|].
        - destruct CO as (_ & B & TS & _). apply tame_app; [apply sep_tame; exact B | exact TS].
        - instantiate (1 := let p := set_next (with_ms dm (y_next (add_parts (parts_of f c i t) (hint_in f c i) q))) (add_parts (parts_of f c i t) (hint_in f c i) q) in
          if gap_at i c then on_gap p else if tagged then set_rate (kbps rate) p else p).
          cbv zeta. destruct (gap_at i c); [reflexivity|]. destruct tagged; reflexivity. }
      cbv zeta in X.
      match type of X with plays ?a ?b ?e => assert (e = after_seg f c es i t (t + d) q) as EQ end.
      { unfold after_seg, add_seg. rewrite KN2. unfold seg_uri.
        unfold add_parts, set_next, with_ms.
        assert (tagged = true -> gap_at i c = false) as TG by (unfold tagged; destruct (gap_at i c); [discriminate | reflexivity]).
        destruct (gap_at i c); [destruct tagged; [discriminate (TG eq_refl)|] |];
        [| destruct tagged]; unfold on_gap, set_rate, set_next; cbn [y_info y_next y_map y_rate y_segs y_hint y_reports x_ms x_discontinuity x_gap x_date x_parts];
          rewrite ?C1, C2; cbn [app]; reflexivity. }
      rewrite EQ in X. exact X.
    + rewrite <- A4. unfold seg_suffix. rewrite <- !app_assoc. unfold parts_here. rewrite A4.
      destruct (gap_at i c); [reflexivity|]. destruct tagged; reflexivity.
  - unfold at_seg. cbn [w_out w_index w_time w_start w_last w_parts w_bi]. repeat split.
    + pose proof (left_next c i (tracks_parts _ TO)) as L. destruct (left_at c i) as [|p r]; cbn [part_index tl].
      * assert (i =? INVALID_INDEX = false) as -> by lia. symmetry. exact L.
      * rewrite Z.eqb_sym. rewrite L. destruct (fst p =? i); reflexivity.
    + eapply Forall2_lag_le; [|exact LB]. lia.
  - unfold knows. cbn [w_last]. unfold after_seg. cbn [y_rate]. rewrite KN2. destruct tagged; [right; reflexivity|]. exact K.
Qed.

(* ----- a run of segments *)

Definition seg_indexes (l : list (Z * Z * Z)) : list Z := map (fun x => fst (fst x)) l.

Definition after_run (f : conf) (c : channel) (es : list est) (l : list (Z * Z * Z)) (q : player) : player :=
  {| y_info := y_info q; y_next := match l with [] => y_next q | _ => next0 end; y_map := y_map q;
     y_rate := rate_after c es (y_rate q) l;
     y_segs := y_segs q ++ run_of f c es (y_map q) (x_discontinuity (y_next q)) (x_date (y_next q)) (y_rate q) l;
     y_hint := hint_after f c (y_hint q) (seg_indexes l); y_reports := y_reports q |}.

Lemma after_run_nil f c es q : after_run f c es [] q = q.
Proof. destruct q. unfold after_run. cbn. rewrite app_nil_r. reflexivity. Qed.

Lemma after_run_cons f c es i t0 t1 l q :
  after_run f c es ((i, t0, t1) :: l) q = after_run f c es l (after_seg f c es i t0 t1 q).
Proof.
  unfold after_run, after_seg. cbn [y_info y_next y_map y_rate y_segs y_hint y_reports rate_after run_of seg_indexes map fst].
  rewrite <- app_assoc. cbn [app next0 x_discontinuity x_date].
  replace (match l with [] => next0 | _ => next0 end) with next0 by (destruct l; reflexivity). reflexivity.
Qed.


Definition sum (l : list Z) : Z := fold_right Z.add 0 l.

Lemma run_plays f c es ds : chan_ok f c -> tracks_ok c -> forall s q i t,
  at_seg c i t s -> knows s q -> clean (y_next q) ->
  Forall (fun d => 0 < d < 2 ^ 32) ds -> 0 <= i -> i + zlen ds <= INVALID_INDEX ->
  runs_ok c es i t ds ->
  let s' := fold_left (fun s d => seg_step (scale c) (seg_suffix f c) es d s) ds s in
  exists o, w_out s' = w_out s ++ o
  /\ plays q o (after_run f c es (place i t ds) q)
  /\ at_seg c (i + zlen ds) (t + sum ds) s'.
Proof.
  intros CO TO. induction ds as [|d ds IH]; intros s q i t A K C D I1 I2 R; cbn [fold_left place].
  - exists []. rewrite app_nil_r, after_run_nil. unfold zlen, sum. cbn [length fold_right].
    replace (i + Z.of_nat 0) with i by lia. replace (t + 0) with t by lia. split; [reflexivity|]. split; [apply plays_nil | exact A].
  - inversion D as [|? ? D1 D2]; subst. unfold runs_ok in R. cbn [place] in R. inversion R as [|? ? R1 R2]; subst. cbn [fst snd] in R1.
    assert (zlen (d :: ds) = 1 + zlen ds) as ZL by (unfold zlen; cbn [length]; lia).
    assert (0 <= zlen ds) as ZP by (unfold zlen; lia).
    destruct (seg_step_plays f c es s q i t d CO TO A K C D1 ltac:(lia) R1) as (o1 & W1 & P1 & A1 & K1).
    destruct (IH (seg_step (scale c) (seg_suffix f c) es d s) (after_seg f c es i t (t + d) q) (i + 1) (t + d) A1 K1) as (o2 & W2 & P2 & A2).
    + split; reflexivity.
    + exact D2.
    + lia.
    + lia.
    + exact R2.
    + exists (o1 ++ o2). cbn zeta in W2. rewrite W2, W1, <- app_assoc. split; [reflexivity|]. split.
      * rewrite after_run_cons. eapply plays_app; eassumption.
      * unfold sum in *. cbn [fold_right]. replace (i + zlen (d :: ds)) with (i + 1 + zlen ds) by lia.
        replace (t + (d + fold_right Z.add 0 ds)) with (t + d + fold_right Z.add 0 ds) by lia. exact A2.
Qed.
