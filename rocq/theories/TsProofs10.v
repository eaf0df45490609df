(* The simulation of one stream counts the packets that the encoder completes. *)

From Coq Require Import ZArith List Bool Lia ZifyBool.
From Verif Require Import Lists TsModel TsSpec TsProofs TsProofs2 TsProofs3 TsProofs4 TsProofs5 TsProofs6 TsProofs7
  TsProofs8 TsProofs9.
Import ListNotations.
Open Scope Z_scope.

Definition load (t : strm) (a : aenc) : Z :=
  match a_open a with Some p => Z.of_nat (length (wire t p)) - 4 | None => 0 end.
Definition isopen (a : aenc) : Z := match a_open a with Some _ => 1 | None => 0 end.
Definition ndone (a : aenc) : Z := Z.of_nat (length (a_done a)).

Record SM (c : conf) (t : strm) (ph : phase) (a : aenc) (m : sim) : Prop := {
  s_temp : m_temp m = load t a;
  s_cc : ph <> Done -> m_cc m = a_cc a - isopen a;
  s_in : is_in ph = true -> m_fl m = a_fl a /\ m_left m = a_left a /\ m_hdr m = a_hdr a;
  s_pos : pend ph = 0 -> a_open a <> None -> 0 < load t a
}.

Lemma load_pos t a : 0 <= load t a.
Proof. unfold load. destruct (a_open a); [rewrite len_wire|]; lia. Qed.

Lemma hsize_pos t : (0 < hsize t)%nat.
Proof. unfold hsize. destruct (is_video t), (t_pcr t); cbn; lia. Qed.

Lemma sim_start_ok c t ph h a recs tail m f i q :
  J c t ph h a recs tail -> SM c t ph a m -> ph = New \/ ph = Between ->
  exists m' q', sim_start i t f m q = (m', q') /\ SM c t (Inside true 0) (a_start t f a) m' /\
    q_count q' - q_count q = ndone (a_start t f a) - ndone a /\ a_fl (a_start t f a) = 0.
Proof.
  intros HJ HS Hph. destruct HS as [S1 S2 S3 S4]. unfold sim_start. rewrite S1.
  assert (Hcc : m_cc m = a_cc a - isopen a) by (apply S2; destruct Hph; subst; discriminate).
  pose proof (hsize_le t) as Hs. pose proof (hsize_pos t) as Hs0.
  pose proof (j_k _ _ _ _ _ _ _ HJ) as HK.
  unfold a_start, load, isopen, ndone in *. destruct (a_open a) as [p|] eqn:Ho.
  - assert (Hb : ph = Between) by (destruct Hph as [-> | ->]; [destruct (j_ph _ _ _ _ _ _ _ HJ); congruence|reflexivity]).
    subst ph. destruct (j_ph _ _ _ _ _ _ _ HJ) as [_ HP]. destruct (HP p Ho) as (P1 & _).
    destruct (k_part _ _ _ _ HK p eq_refl) as [Hst Hlen].
    rewrite len_wire, (cont_hlen t p P1), Hst in *.
    set (f' := match a_pts a with Some x => Frame x (f_dts f) (f_size f) (f_header f) | None => f end).
    assert (Hrl : length (skipn (184 - hsize t) (k_data p)) = (length (k_data p) - (184 - hsize t))%nat) by apply skipn_length.
    destruct (4 + length (k_data p) + hsize t <? 188)%nat eqn:E.
    + apply Nat.ltb_lt in E.
      destruct (184 <=? Z.of_nat (4 + 0 + 0 + length (k_data p)) - 4 + Z.of_nat (hsize t)) eqn:E2; [lia|].
      eexists _, _. split; [reflexivity|]. split.
      * constructor; unfold load, isopen; cbn [a_open a_cc a_fl a_left a_hdr m_temp m_cc m_fl m_left m_hdr].
        -- rewrite len_wire. unfold hlen. cbn [k_hd k_stuff k_data]. lia.
        -- intros _. exact Hcc.
        -- intros _. unfold zlen. repeat split; lia.
        -- discriminate.
      * cbn [a_done a_fl]. split; [lia|reflexivity].
    + apply Nat.ltb_ge in E.
      destruct (184 <=? Z.of_nat (4 + 0 + 0 + length (k_data p)) - 4 + Z.of_nat (hsize t)) eqn:E2; [|lia].
      eexists _, _. split; [reflexivity|].
      destruct (skipn (184 - hsize t) (k_data p)) as [|r0 r1] eqn:Er.
      * cbn [length] in Hrl. split.
        -- constructor; unfold load, isopen; cbn [a_open a_cc a_fl a_left a_hdr m_temp m_cc m_fl m_left m_hdr].
           ++ lia.
           ++ intros _. lia.
           ++ intros _. repeat split; lia.
           ++ discriminate.
        -- cbn [a_done a_fl q_count]. rewrite app_length. cbn [length]. split; [lia|reflexivity].
      * rewrite <- Er in *. split.
        -- constructor; unfold load, isopen; cbn [a_open a_cc a_fl a_left a_hdr m_temp m_cc m_fl m_left m_hdr].
           ++ rewrite len_wire. unfold hlen. cbn [k_hd k_stuff k_data]. lia.
           ++ intros _. lia.
           ++ intros _. unfold zlen. repeat split; lia.
           ++ discriminate.
        -- cbn [a_done a_fl q_count]. rewrite app_length. cbn [length]. split; [lia|reflexivity].
  - destruct (184 <=? 0 + Z.of_nat (hsize t)) eqn:E2; [lia|].
    eexists _, _. split; [reflexivity|]. split.
    + constructor; unfold load, isopen; cbn [a_open a_cc a_fl a_left a_hdr m_temp m_cc m_fl m_left m_hdr].
      * rewrite len_wire. unfold hlen. cbn [k_hd k_stuff k_data length]. lia.
      * intros _. lia.
      * intros _. repeat split; lia.
      * discriminate.
    + cbn [a_done a_fl]. split; [lia|reflexivity].
Qed.

Lemma full_count n : forall buf a, a_open a = None ->
  ndone (a_full n buf a) = ndone a + Z.of_nat n /\ a_cc (a_full n buf a) = a_cc a + Z.of_nat n /\
  a_fl (a_full n buf a) = a_fl a /\ a_left (a_full n buf a) = a_left a /\ a_hdr (a_full n buf a) = a_hdr a /\
  a_open (a_full n buf a) = None.
Proof.
  induction n as [|n IH]; intros buf a Ho; cbn [a_full].
  - rewrite !Z.add_0_r. auto 10.
  - destruct (IH (skipn 184 buf) (A (a_done a ++ [Pkt (a_cc a) None 0 (firstn 184 buf)]) None (a_cc a + 1) (a_wr a)
           (a_fl a) (a_left a) (a_hdr a) None (a_ok a)) eq_refl) as (H1 & H2 & H3 & H4 & H5 & H6).
    rewrite H1, H2, H3, H4, H5, H6. unfold ndone. cbn [a_done a_cc a_fl a_left a_hdr]. rewrite app_length. cbn [length].
    split; [lia|]. split; [lia|]. auto.
Qed.

Lemma sim_write_ok c t p n h a recs tail m buf i q :
  J c t (Inside p n) h a recs tail -> SM c t (Inside p n) a m -> 0 < zlen buf ->
  exists m' q', sim_write i (zlen buf) m q = (m', q') /\ SM c t (Inside false (n + zlen buf)) (a_write t buf a) m' /\
    q_count q' - q_count q = ndone (a_write t buf a) - ndone a /\
    ((q' = q /\ a_fl (a_write t buf a) = a_fl a) \/ q_who q' = Some i).
Proof.
  intros HJ HS Hb. destruct HS as [S1 S2 S3 S4]. destruct (S3 eq_refl) as (E1 & E2 & E3).
  assert (Hcc : m_cc m = a_cc a - isopen a) by (apply S2; discriminate).
  pose proof (j_k _ _ _ _ _ _ _ HJ) as HK.
  set (a1 := match a_open a with None => a_init (a_put a (a_done a) (a_open a) (a_wr a + zlen buf) (a_ok a))
             | Some _ => a_put a (a_done a) (a_open a) (a_wr a + zlen buf) (a_ok a) end).
  assert (H1 : exists p1, a_open a1 = Some p1 /\ load t a = Z.of_nat (length (wire t p1)) - 4 /\ a_done a1 = a_done a /\
     a_cc a1 - 1 = a_cc a - isopen a /\ a_fl a1 = a_fl a /\ a_left a1 = a_left a /\ a_hdr a1 = a_hdr a /\ (length (wire t p1) < 188)%nat).
  { unfold a1, load, isopen. destruct (a_open a) as [p1|] eqn:Ho.
    - exists p1. cbn [a_put a_open a_done a_cc a_fl a_left a_hdr]. repeat (split; [reflexivity|]).
      exact (proj2 (k_part _ _ _ _ HK p1 eq_refl)).
    - exists (Pkt (a_cc a) None 0 []). cbn [a_init a_put a_open a_done a_cc a_fl a_left a_hdr]. split; [reflexivity|].
      rewrite len_wire. cbn [hlen k_hd k_stuff k_data length]. split; [lia|]. split; [reflexivity|]. split; [lia|]. auto with arith.
      repeat (split; [reflexivity|]). lia. }
  destruct H1 as (p1 & Ho1 & L1 & D1 & C1 & F1 & F2 & F3 & L2).
  assert (Ea : a_write t buf a = if (length (wire t p1) + length buf <? 188)%nat
      then a_put a1 (a_done a1) (Some (a_more p1 buf)) (a_wr a1) (a_ok a1)
      else
        let k := (188 - length (wire t p1))%nat in
        let rest := skipn k buf in
        let n := (length rest / 184)%nat in
        let a := a_full n rest
                   (A (a_done a1 ++ [a_more p1 (firstn k buf)]) None (a_cc a1) (a_wr a1)
                      (a_fl a1 + a_left a1 + Z.of_nat (n * 184)) 184 (a_hdr a1) (a_pts a1) (a_ok a1)) in
        match skipn (n * 184) rest with
        | [] => a
        | l =>
            A (a_done a) (Some (Pkt (a_cc a) None 0 l)) (a_cc a + 1) (a_wr a) (a_fl a)
              (a_left a) (a_hdr a) None (a_ok a)
        end).
  { transitivity (match a_open a1 with None => a1 | Some p => if (length (wire t p) + length buf <? 188)%nat
      then a_put a1 (a_done a1) (Some (a_more p buf)) (a_wr a1) (a_ok a1)
      else
        let k := (188 - length (wire t p))%nat in
        let rest := skipn k buf in
        let n := (length rest / 184)%nat in
        let a := a_full n rest
                   (A (a_done a1 ++ [a_more p (firstn k buf)]) None (a_cc a1) (a_wr a1)
                      (a_fl a1 + a_left a1 + Z.of_nat (n * 184)) 184 (a_hdr a1) (a_pts a1) (a_ok a1)) in
        match skipn (n * 184) rest with
        | [] => a
        | l =>
            A (a_done a) (Some (Pkt (a_cc a) None 0 l)) (a_cc a + 1) (a_wr a) (a_fl a)
              (a_left a) (a_hdr a) None (a_ok a)
        end end).
    - unfold a1, a_write. destruct (a_open a) eqn:Ho; cbn [a_put a_open]; rewrite ?Ho; reflexivity.
    - rewrite Ho1. reflexivity. }
  rewrite Ea. clear Ea. clearbody a1. unfold sim_write. rewrite S1, L1.
  assert (HW4 : (4 <= length (wire t p1))%nat) by (rewrite len_wire; lia).
  unfold zlen. unfold zlen in Hb.
  set (w := length (wire t p1)) in *. set (b := length buf) in *.
  destruct (w + b <? 188)%nat eqn:E.
  - apply Nat.ltb_lt in E.
    assert (H0 : (Z.of_nat b + (Z.of_nat w - 4)) / 184 = 0) by (apply Z.div_small; lia). rewrite H0. cbn [Z.leb Z.compare].
    eexists _, _. split; [reflexivity|]. split.
    + assert (HL : load t (a_put a1 (a_done a1) (Some (a_more p1 buf)) (a_wr a1) (a_ok a1)) = Z.of_nat b + (Z.of_nat w - 4)).
      { unfold load. cbn [a_put a_open]. unfold w. rewrite !len_wire. unfold a_more, hlen. cbn [k_hd k_stuff k_data].
        rewrite app_length. fold b. lia. }
      constructor.
      * rewrite HL. cbn [m_temp]. lia.
      * intros _. unfold isopen. cbn [a_put a_open a_cc m_cc]. lia.
      * intros _. cbn [a_put a_fl a_left a_hdr m_fl m_left m_hdr]. lia.
      * intros _ _. rewrite HL. lia.
    + split; [unfold ndone; cbn [a_put a_done]; rewrite D1; lia|]. left. split; [reflexivity|]. cbn [a_put a_fl]. exact F1.
  - apply Nat.ltb_ge in E. cbv zeta.
    set (k := (188 - w)%nat). set (rest := skipn k buf). set (n0 := (length rest / 184)%nat).
    assert (Hr : length rest = (w + b - 188)%nat) by (unfold rest; rewrite skipn_length; unfold k; lia).
    pose proof (Nat.div_mod (length rest) 184 ltac:(lia)) as Hdm. fold n0 in Hdm.
    pose proof (Nat.mod_upper_bound (length rest) 184 ltac:(lia)) as Hmb.
    assert (Hdiv : (Z.of_nat b + (Z.of_nat w - 4)) / 184 = Z.of_nat n0 + 1).
    { symmetry. apply Z.div_unique with (Z.of_nat (length rest mod 184)); lia. }
    rewrite Hdiv. destruct (Z.of_nat n0 + 1 <=? 0) eqn:E0; [lia|].
    set (a2 := A (a_done a1 ++ [a_more p1 (firstn k buf)]) None (a_cc a1) (a_wr a1)
                      (a_fl a1 + a_left a1 + Z.of_nat (n0 * 184)) 184 (a_hdr a1) (a_pts a1) (a_ok a1)).
    destruct (full_count n0 rest a2 eq_refl) as (G1 & G2 & G3 & G4 & G5 & G6).
    set (a3 := a_full n0 rest a2) in *.
    assert (Hn2 : ndone a2 = ndone a + 1) by (unfold ndone, a2; cbn [a_done]; rewrite app_length, D1; cbn [length]; lia).
    assert (Hsl : length (skipn (n0 * 184) rest) = (length rest mod 184)%nat) by (rewrite skipn_length; lia).
    assert (Hc2 : a_cc a2 = a_cc a1) by reflexivity. assert (Hf2 : a_fl a2 = a_fl a1 + a_left a1 + Z.of_nat (n0 * 184)) by reflexivity.
    assert (Hl2 : a_left a2 = 184) by reflexivity. assert (Hh2 : a_hdr a2 = a_hdr a1) by reflexivity.
    clearbody a3 a2.
    eexists _, _. split; [reflexivity|]. cbn [q_count q_who].
    destruct (skipn (n0 * 184) rest) as [|z0 zs] eqn:Er.
    + cbn [length] in Hsl. split.
      * constructor; unfold load, isopen; rewrite ?G6; cbn [m_temp m_cc m_fl m_left m_hdr].
        -- lia.
        -- intros _. lia.
        -- intros _. lia.
        -- congruence.
      * split; [lia|auto].
    + rewrite <- Er in *. split.
      * assert (HL : load t (A (a_done a3) (Some (Pkt (a_cc a3) None 0 (skipn (n0 * 184) rest))) (a_cc a3 + 1) (a_wr a3) (a_fl a3)
           (a_left a3) (a_hdr a3) None (a_ok a3)) = Z.of_nat (length rest mod 184)).
        { unfold load. cbn [a_open]. rewrite len_wire. cbn [hlen k_hd k_stuff k_data]. lia. }
        constructor.
        -- rewrite HL. cbn [m_temp]. lia.
        -- intros _. unfold isopen. cbn [a_open a_cc m_cc]. lia.
        -- intros _. cbn [a_fl a_left a_hdr m_fl m_left m_hdr]. lia.
        -- intros _ _. rewrite HL. rewrite Er in Hsl. cbn [length] in Hsl. lia.
      * split; [|auto]. unfold ndone in *. cbn [a_done]. lia.
Qed.

Lemma sim_sub_ok c t n a m f :
  SM c t (Inside false n) a m -> SM c t (Inside true n) (a_sub f a) m /\ ndone (a_sub f a) = ndone a /\ a_fl (a_sub f a) = a_fl a.
Proof.
  intros [S1 S2 S3 S4]. unfold a_sub. destruct (a_open a) as [p|] eqn:Ho.
  - destruct (a_pts a) as [x|] eqn:Ep.
    + split; [|auto]. constructor; [exact S1|intros _; apply S2; discriminate|exact S3|discriminate].
    + split; [|auto]. unfold load, isopen in *. rewrite Ho in *. constructor; unfold load, isopen; cbn [a_open a_cc a_fl a_left a_hdr].
      * exact S1.
      * intros _. apply S2. discriminate.
      * exact S3.
      * discriminate.
  - split; [|auto]. unfold load, isopen in *. rewrite Ho in *. constructor; unfold load, isopen; cbn [a_open a_cc a_fl a_left a_hdr].
    + rewrite len_wire. cbn [hlen k_hd k_stuff k_data length]. lia.
    + intros _. rewrite S2 by discriminate. lia.
    + exact S3.
    + discriminate.
Qed.

(* ---------- closing ---------- *)

Lemma patch_len v l : length (patch_done v l) = length l.
Proof. induction l as [|p l IH]; [reflexivity|]. cbn [patch_done length]. destruct (existsb is_start l); cbn [length]; lia. Qed.

Lemma patch_same t v a : load t (a_patch v a) = load t a /\ isopen (a_patch v a) = isopen a /\ ndone (a_patch v a) = ndone a.
Proof.
  unfold load, isopen, ndone, a_patch. destruct (a_open a) as [p|] eqn:Ho; [destruct (is_start p)|];
    cbn [a_put a_open a_done]; rewrite ?patch_len, ?len_set_v; auto.
Qed.

Lemma close_same t a : load t (a_close t a) = 0 /\ isopen (a_close t a) = 0 /\ ndone (a_close t a) = ndone a + isopen a /\
  a_cc (a_close t a) = a_cc a /\ a_open (a_close t a) = None.
Proof.
  unfold load, isopen, ndone, a_close. destruct (a_open a) as [p|] eqn:Ho; cbn [a_put a_open a_done a_cc]; rewrite ?app_length;
    cbn [length]; repeat split; lia.
Qed.

Lemma stuff_same t a : load t (a_stuff t a) = 0 /\ ndone (a_stuff t a) = ndone a + isopen a /\
  a_cc (a_stuff t a) = a_cc a /\ a_open (a_stuff t a) = None.
Proof.
  unfold a_stuff. destruct (negb (a_wr a =? 0) && negb (is_video t)).
  - set (v := if 65535 <? a_size a + a_wr a then 0 else a_size a + a_wr a).
    set (a1 := a_put (a_patch v a) (a_done (a_patch v a)) (a_open (a_patch v a)) 0 (a_ok (a_patch v a))).
    destruct (close_same t a1) as (H1 & H2 & H3 & H4 & H5). destruct (patch_same t v a) as (P1 & P2 & P3).
    change (load t (a_close t a1) = 0 /\ ndone (a_close t a1) = ndone a + isopen a /\ a_cc (a_close t a1) = a_cc a /\ a_open (a_close t a1) = None).
    rewrite H1, H3, H4, H5. split; [reflexivity|]. split; [|split; [|reflexivity]].
    + change (ndone (a_patch v a) + isopen (a_patch v a) = ndone a + isopen a). lia.
    + exact (proj1 (a_patch_rest v a)).
  - destruct (close_same t a) as (H1 & H2 & H3 & H4 & H5). change (load t (a_close t a) = 0 /\ ndone (a_close t a) = ndone a + isopen a /\
      a_cc (a_close t a) = a_cc a /\ a_open (a_close t a) = None). auto.
Qed.

Lemma sim_stuff_ok c t ph a m i q :
  SM c t ph a m -> pend ph = 0 -> is_in ph = false ->
  exists m' q', sim_stuff i m q = (m', q') /\ SM c t ph (a_stuff t a) m' /\
    q_count q' - q_count q = ndone (a_stuff t a) - ndone a.
Proof.
  intros [S1 S2 S3 S4] Hp Hi. destruct (stuff_same t a) as (H1 & H2 & H3 & H4). unfold sim_stuff. rewrite S1.
  destruct (a_open a) as [p|] eqn:Ho.
  - assert (Hl : 0 < load t a) by (apply S4; [exact Hp|congruence]). destruct (0 <? load t a) eqn:E; [|lia].
    eexists _, _. split; [reflexivity|]. split.
    + constructor.
      * cbn [m_temp]. lia.
      * intros Hd. rewrite H3. unfold isopen in *. rewrite H4. cbn [m_cc]. rewrite (S2 Hd), Ho. lia.
      * rewrite Hi. discriminate.
      * rewrite H4. congruence.
    + cbn [q_count]. rewrite H2. unfold isopen. rewrite Ho. lia.
  - assert (Hl : load t a = 0) by (unfold load; rewrite Ho; reflexivity). rewrite Hl. cbn [Z.ltb Z.compare].
    eexists _, _. split; [reflexivity|]. split.
    + constructor.
      * lia.
      * intros Hd. rewrite H3. unfold isopen in *. rewrite H4. rewrite (S2 Hd), Ho. lia.
      * rewrite Hi. discriminate.
      * rewrite H4. congruence.
    + rewrite H2. unfold isopen. rewrite Ho. lia.
Qed.

(* Nothing is open: the simulation does nothing, and only marks change. *)
Lemma sim_closed c t ph a m i q : SM c t ph a m -> a_open a = None -> sim_stuff i m q = (m, q).
Proof.
  intros [S1 S2 S3 S4] Ho. unfold sim_stuff. rewrite S1. unfold load. rewrite Ho. reflexivity.
Qed.

Lemma SM_stuff_closed c t ph a m : SM c t ph a m -> is_in ph = false -> a_open a = None ->
  SM c t ph (a_stuff t a) m /\ ndone (a_stuff t a) = ndone a.
Proof.
  intros [S1 S2 S3 S4] Hi Ho. destruct (stuff_same t a) as (H1 & H2 & H3 & H4). unfold isopen, load in *. rewrite Ho in *.
  split; [|lia]. constructor.
  - unfold load. rewrite H4. exact S1.
  - intros Hd. unfold isopen. rewrite H4, H3. exact (S2 Hd).
  - rewrite Hi. discriminate.
  - rewrite H4. congruence.
Qed.

Lemma nulls_count n : forall a, a_open a = None ->
  ndone (a_nulls n a) = ndone a + Z.of_nat n /\ a_open (a_nulls n a) = None.
Proof.
  induction n as [|n IH]; intros a Ho; cbn [a_nulls].
  - rewrite Z.add_0_r. auto.
  - destruct (IH (A (a_done a ++ [Pkt (a_cc a) None 184 []]) None (a_cc a + 1) (a_wr a) (a_fl a) (a_left a) (a_hdr a) None (a_ok a)) eq_refl) as (H1 & H2).
    rewrite H1, H2. unfold ndone. cbn [a_done]. rewrite app_length. cbn [length]. split; [lia|reflexivity].
Qed.

Lemma sim_flush_ok c t n a m (last : bool) i q :
  SM c t (Inside false n) a m ->
  exists m' q', sim_flush c i t last m q = (m', q') /\ SM c t (if last then Done else Between) (a_flush c t last a) m' /\
    q_count q' - q_count q = ndone (a_flush c t last a) - ndone a /\
    (a_open (a_flush c t last a) <> None -> q' = q /\ c_align c = false /\ a_hdr a <= a_fl a).
Proof.
  intros [S1 S2 S3 S4]. destruct (S3 eq_refl) as (E1 & E2 & E3).
  assert (Hcc : m_cc m = a_cc a - isopen a) by (apply S2; discriminate).
  unfold sim_flush, a_flush.
  assert (Es : c_align c || (m_temp m =? 0) || (m_fl m <? m_hdr m) || last = a_stuffs c last a).
  { unfold a_stuffs. rewrite E1, E3, S1. f_equal. f_equal. f_equal. unfold load. destruct (a_open a) as [p|] eqn:Ho; [|reflexivity].
    pose proof (S4 eq_refl ltac:(congruence)) as H. unfold load in H. rewrite Ho in H. lia. }
  rewrite Es. set (s := a_stuffs c last a) in *.
  match goal with |- context [if is_video t && negb (c_align c) then (a, 0) else ?x] =>
    set (r := if is_video t && negb (c_align c) then (a, 0) else x) end.
  assert (H1 : exists a1 v, r = (a1, v) /\ load t a1 = load t a /\ isopen a1 = isopen a /\ ndone a1 = ndone a /\ a_cc a1 = a_cc a).
  { unfold r. destruct (is_video t && negb (c_align c)).
    - exists a, 0. auto.
    - destruct s; [|destruct (a_open a) as [p|] eqn:Ho]; eexists _, _; (split; [reflexivity|]);
        unfold load, isopen, ndone; cbn [a_put a_open a_done a_cc]; rewrite ?Ho; auto. }
  destruct H1 as (a1 & v & -> & D1 & D2 & D3 & D4).
  destruct (patch_same t v a1) as (P1 & P2 & P3). destruct (a_patch_rest v a1) as (Q1 & _).
  set (a2 := a_patch v a1) in *. clearbody a2.
  assert (Hio : forall x, isopen x = 0 -> a_open x = None) by (intros x; unfold isopen; destruct (a_open x); [discriminate|reflexivity]).
  destruct s eqn:Hs.
  - destruct (stuff_same t a2) as (F1 & F2 & F3 & F4). set (a3 := a_stuff t a2) in *. clearbody a3.
    set (rs := sim_stuff i m q).
    assert (HSS : exists m1 q1, rs = (m1, q1) /\ m_temp m1 = 0 /\ m_cc m1 = a_cc a3 /\ q_count q1 = q_count q + isopen a).
    { unfold rs, sim_stuff. rewrite S1. unfold isopen in *. destruct (a_open a) as [p|] eqn:Ho.
      - pose proof (S4 eq_refl ltac:(congruence)) as H. destruct (0 <? load t a) eqn:E; [|lia].
        eexists _, _. split; [reflexivity|]. cbn [m_temp m_cc q_count]. lia.
      - assert (Hl : load t a = 0) by (unfold load; rewrite Ho; reflexivity). rewrite Hl. cbn [Z.ltb Z.compare].
        eexists _, _. split; [reflexivity|]. lia. }
    destruct HSS as (m1 & q1 & -> & T1 & T2 & T3). destruct last.
    + cbn [andb]. destruct (is_other t) eqn:Eo; cbn [negb]; rewrite ?andb_false_r.
      * eexists _, _. split; [reflexivity|]. split.
        -- constructor; cbn [m_temp m_cc].
           ++ lia.
           ++ congruence.
           ++ discriminate.
           ++ rewrite F4. congruence.
        -- split; [lia|]. rewrite F4. congruence.
      * set (k := Z.to_nat ((- a_cc a3) mod 16)). destruct (nulls_count k a3 F4) as (N1 & N2).
        assert (Hk : Z.of_nat k = if negb (m_cc m1 mod 16 =? 0) then 16 - m_cc m1 mod 16 else 0).
        { unfold k. rewrite Z2Nat.id by (apply Z.mod_pos_bound; lia). rewrite T2.
          destruct (negb (a_cc a3 mod 16 =? 0)) eqn:E.
          - apply Z_mod_nz_opp_full. lia.
          - apply Z_mod_zero_opp_full. lia. }
        rewrite andb_true_r.
        eexists _, _. split; [reflexivity|]. split.
        -- constructor; cbn [m_temp m_cc].
           ++ unfold load. rewrite N2. exact T1.
           ++ congruence.
           ++ discriminate.
           ++ rewrite N2. congruence.
        -- split; [|rewrite N2; congruence]. rewrite N1, F2. destruct (negb (m_cc m1 mod 16 =? 0)); cbn [q_count]; lia.
    + cbn [andb]. eexists _, _. split; [reflexivity|]. split.
      * constructor.
        -- lia.
        -- intros _. unfold isopen. rewrite F4. lia.
        -- discriminate.
        -- rewrite F4. congruence.
      * split; [lia|]. rewrite F4. congruence.
  - assert (El : last = false) by (destruct last; [unfold s, a_stuffs in Hs; rewrite orb_true_r in Hs; discriminate|reflexivity]).
    rewrite El. cbn [andb]. eexists _, _. split; [reflexivity|]. split.
    + constructor.
      * lia.
      * intros _. lia.
      * discriminate.
      * intros _ Hop. rewrite P1, D1. apply S4; [reflexivity|]. intros H. unfold isopen in *. rewrite H in *.
        destruct (a_open a2); [lia|congruence].
    + split; [lia|]. intros _. split; [reflexivity|]. unfold s, a_stuffs in Hs.
      destruct (c_align c); [discriminate|]. split; [reflexivity|]. destruct (a_open a); [|discriminate]. cbn [orb] in Hs. rewrite El in Hs. lia.
Qed.
