From Coq Require Import ZArith List Bool Lia ZifyBool.
From Verif Require Import Lists Bytes Fmp4Model Fmp4Spec Fmp4Proofs Fmp4Proofs2 CencModel CencSpec CencProofs.
Import ListNotations.
Open Scope Z_scope.

Section video.
Variables (E : list Z -> list Z) (cap : Z) (cd : codec) (nl : Z) (hdr : list Z -> list Z -> res (list Z)).
Hypothesis HE : block_cipher E.
Hypothesis Hcap : 16 <= cap.
Hypothesis Hnl : 1 <= nl <= 4.
Let g := Cfg E cap cd nl hdr.

Definition nal_bytes (n : list Z) : list Z := be (Z.to_nat nl) (zlen n) ++ n.
Definition flatn (ns : list (list Z)) : list Z := concat (map nal_bytes ns).
Definition ok_nal (n : list Z) : Prop := Forall is_byte n /\ 1 <= zlen n < 256 ^ nl.

Definition adv (n : list Z) : Z := if slice_nal cd n then zlen n - 1 else 0.
Definition enc_nal (iv : list Z) (p : Z) (n : list Z) : list Z :=
  be (Z.to_nat nl) (zlen n) ++
  match n with
  | [] => []
  | b :: r => b :: (if slice_nal cd n then ctr E iv p r else r)
  end.
Fixpoint enc_nals (iv : list Z) (p : Z) (ns : list (list Z)) : list Z :=
  match ns with
  | [] => []
  | n :: ns => enc_nal iv p n ++ enc_nals iv (p + adv n) ns
  end.
Definition sub_bytes (n : list Z) : list Z :=
  be 2 (fst (protect cd nl n)) ++ be 4 (snd (protect cd nl n)).
Definition subs_bytes (ns : list (list Z)) : list Z := concat (map sub_bytes ns).

Lemma encrypts_spec b r : is_byte b -> encrypts cd b = slice_nal cd (b :: r).
Proof.
  intro B. unfold encrypts, slice_nal. destruct cd.
  - change 31 with (2 ^ 5 - 1). rewrite land_mask by lia. change (2 ^ 5) with 32. lia.
  - change 63 with (2 ^ 6 - 1). rewrite land_mask by lia. change (2 ^ 6) with 64. lia.
Qed.

Lemma read_len_be n : forall acc z r, 0 <= acc -> 0 <= z < 256 ^ Z.of_nat n -> acc * 256 ^ Z.of_nat n + z < 2 ^ 32 ->
  read_len n acc (be n z ++ r) = (0%nat, acc * 256 ^ Z.of_nat n + z, r).
Proof.
  induction n as [|n IH]; intros acc z r A B C.
  - change (256 ^ Z.of_nat 0) with 1 in *. cbn [read_len]. replace z with 0 by lia. cbn. now rewrite Z.mul_1_r, Z.add_0_r.
  - rewrite pow256_S in *. assert (P : 0 < 256 ^ Z.of_nat n) by (apply Z.pow_pos_nonneg; lia).
    set (k := 256 ^ Z.of_nat n) in *.
    assert (Hb : be (S n) z = z / k :: be n (z mod k)).
    { unfold be. assert (G : forall m y, 0 <= y < 256 * 256 ^ Z.of_nat m -> le (S m) y = le m (y mod 256 ^ Z.of_nat m) ++ [y / 256 ^ Z.of_nat m]).
      { clear. induction m as [|m IH]; intros y Hy.
        - change (256 ^ Z.of_nat 0) with 1 in *. cbn. rewrite Z.div_1_r. now rewrite Z.mod_small by lia.
        - rewrite pow256_S in *. cbn [le] in *. set (k := 256 ^ Z.of_nat m) in *.
          assert (0 < k) by (unfold k; apply Z.pow_pos_nonneg; lia).
          specialize (IH (y / 256)). rewrite IH by (split; [apply Z.div_pos; lia|apply Z.div_lt_upper_bound; lia]).
          cbn [app]. f_equal; [|f_equal].
          + symmetry. rewrite Z.rem_mul_r by lia.
            rewrite (Z.mul_comm 256 ((y / 256) mod k)), Z.mod_add by lia. apply Z.mod_mod. lia.
          + f_equal. rewrite Z.rem_mul_r by lia.
            rewrite (Z.add_comm (y mod 256)), Z.mul_comm, Z.div_add_l by lia.
            rewrite (Z.div_small (y mod 256)) by (apply Z.mod_pos_bound; lia). lia.
          + f_equal. now rewrite Z.div_div by lia. }
      rewrite G by lia. fold k. rewrite rev_app_distr. reflexivity. }
    rewrite Hb. cbn [app read_len].
    assert (D1 : 0 <= z / k < 256) by (split; [apply Z.div_pos; lia|apply Z.div_lt_upper_bound; lia]).
    assert (D2 : 0 <= z mod k < k) by (apply Z.mod_pos_bound; lia).
    assert (D3 : z = k * (z / k) + z mod k) by (apply Z.div_mod; lia).
    assert (D4 : acc * 256 + z / k < 2 ^ 32) by nia.
    unfold u32. rewrite Z.mod_small by lia. rewrite IH by nia. f_equal. f_equal. nia.
Qed.

Lemma pow_nl : 256 ^ Z.of_nat (Z.to_nat nl) = 256 ^ nl /\ 256 <= 256 ^ nl <= 2 ^ 32.
Proof.
  rewrite Z2Nat.id by lia. split; [reflexivity|].
  assert (nl = 1 \/ nl = 2 \/ nl = 3 \/ nl = 4) as [-> | [-> | [-> | ->]]] by lia; lia.
Qed.

(* What is done when a packet ends. *)
Definition close (v : vst) : res vst :=
  if v_frame v >? 0 then Ok v
  else
    let v := end_frame v in
    match v_frames v with
    | _ :: _ => Ok v
    | [] =>
        let w := wb_flush cap false (v_wb v) in
        bind (hdr (v_aux v) (v_sizes v)) (fun h =>
          Ok (Vst (v_state v) (v_len v) (v_packet v) (v_frame v) (v_frames v)
                (v_iv v) (v_aes v) (v_aux v) (v_sizes v) (v_subs v) w (Some h)))
    end.

Lemma data_done (enc : bool) k fr fs iv0 a aux szs sb w hd iv p body rest :
  length iv = 8%nat -> ok_wb cap w -> at_ E iv p a ->
  exists a' w', ok_wb cap w' /\
    stream w' = stream w ++ (if enc then ctr E iv p body else body) /\
    at_ E iv (p + if enc then zlen body else 0) a' /\
    data_step g (Vst (if enc then EncryptData else CopyData) k (zlen body) fr fs iv0 a aux szs sb w hd) (body ++ rest) =
    bind (close (Vst PacketSize (Z.to_nat nl) 0 fr fs iv0 a' aux szs sb w' hd)) (fun v => Ok (v, rest)).
Proof.
  intros L O A. pose proof (zlen_nonneg body) as Zb. pose proof (zlen_nonneg rest) as Zr. unfold data_step. cbn [v_packet v_state v_wb v_aes].
  replace (Z.min (zlen (body ++ rest)) (zlen body)) with (zlen body) by (rewrite zlen_app; lia).
  assert (En : Z.to_nat (zlen body) = length body) by (unfold zlen; apply Nat2Z.id). rewrite En.
  assert (F : firstn (length body) (body ++ rest) = body) by (rewrite firstn_app, Nat.sub_diag, firstn_all; apply app_nil_r).
  assert (S' : skipn (length body) (body ++ rest) = rest) by (rewrite skipn_app, Nat.sub_diag, skipn_all; reflexivity).
  rewrite F, S'. replace (zlen body - Z.of_nat (length body)) with 0 by (unfold zlen; lia).
  assert (R : forall a' w',
    (if 0 >? 0
     then Ok (Vst (if enc then EncryptData else CopyData) k 0 fr fs iv0 a' aux szs sb w' hd, rest)
     else
      let v := Vst PacketSize (Z.to_nat nl) 0 fr fs iv0 a' aux szs sb w' hd in
      if v_frame v >? 0 then Ok (v, rest)
      else
       let v0 := end_frame v in
       match v_frames v0 with
       | [] =>
           let w := wb_flush (c_cap g) false (v_wb v0) in
           bind (c_header g (v_aux v0) (v_sizes v0)) (fun h =>
             Ok (Vst (v_state v0) (v_len v0) (v_packet v0) (v_frame v0) (v_frames v0)
                  (v_iv v0) (v_aes v0) (v_aux v0) (v_sizes v0) (v_subs v0) w (Some h), rest))
       | _ :: _ => Ok (v0, rest)
       end) =
    bind (close (Vst PacketSize (Z.to_nat nl) 0 fr fs iv0 a' aux szs sb w' hd)) (fun v => Ok (v, rest))).
  { intros a' w'. change (0 >? 0) with false. cbv iota zeta. unfold close. cbn [v_frame].
    destruct (fr >? 0); [reflexivity|]. cbn [c_cap c_header g end_frame v_frames v_wb v_aux v_sizes v_state v_len v_packet v_frame v_iv v_aes v_subs].
    destruct fs; [|reflexivity]. destruct (hdr _ _); reflexivity. }
  destruct enc.
  - destruct (write_encrypted_ok E cap iv HE L Hcap (S (length body)) body w a p) as (w' & a' & Ew & Sw & Ow & Aw); auto.
    exists a', w'. split; [exact Ow|]. split; [exact Sw|]. split; [exact Aw|].
    cbn [c_E c_cap c_len g]. rewrite Ew. cbn [bind]. cbn [v_frame v_frames v_iv v_aux v_sizes v_subs v_head v_len]. apply R.
  - destruct (wb_write_ok cap ltac:(lia) (S (S (length body))) body w) as (w' & Ew & Sw & Ow); auto.
    { destruct (zlen (w_buf w) <? w_size w); lia. }
    exists a, w'. split; [exact Ow|]. split; [exact Sw|]. split; [rewrite Z.add_0_r; exact A|].
    cbn [c_E c_cap c_len g]. rewrite Ew. cbn [bind]. cbn [v_frame v_frames v_iv v_aux v_sizes v_subs v_head v_len]. apply R.
Qed.

Lemma zlen_nal_bytes n : zlen (nal_bytes n) = nl + zlen n.
Proof. unfold nal_bytes. rewrite zlen_app, zlen_be. lia. Qed.

Lemma packet_ok n rest fs iv0 a aux szs sb w hd iv p :
  ok_nal n -> length iv = 8%nat -> ok_wb cap w -> at_ E iv p a -> (rest = [] \/ nl < zlen rest) ->
  exists a' w', ok_wb cap w' /\ stream w' = stream w ++ enc_nal iv p n /\ at_ E iv (p + adv n) a' /\
    packet_step g (Vst PacketSize (Z.to_nat nl) 0 (zlen (nal_bytes n ++ rest)) fs iv0 a aux szs sb w hd) (nal_bytes n ++ rest) =
    bind (close (Vst PacketSize (Z.to_nat nl) 0 (zlen rest) fs iv0 a' (aux ++ sub_bytes n) szs ((sb + 1) mod 65536) w' hd))
      (fun v => Ok (v, rest)).
Proof.
  intros (B & Zn) L O A R. destruct pow_nl as (P1 & P2).
  assert (Zr : zlen rest = 0 \/ nl < zlen rest) by (destruct R as [->|R]; [left; reflexivity|auto]).
  pose proof (zlen_nonneg rest) as Zr0.
  destruct n as [|b r]; [unfold zlen in Zn; cbn in Zn; lia|].
  apply Forall_cons_iff in B. destruct B as (Bb & Br). assert (Zc := zlen_cons b r). set (z := zlen (b :: r)) in *.
  destruct (get_ok cap (nl + 1) w O ltac:(lia)) as (w1 & G1 & S1 & O1 & F1).
  destruct (put_ok cap (be (Z.to_nat nl) z ++ [b]) w1 O1) as (Q1 & Q2).
  { rewrite zlen_app, zlen_be. change (zlen [b]) with 1. lia. }
  assert (Sl := encrypts_spec b r Bb). set (enc := slice_nal cd (b :: r)) in *.
  set (sub := if enc then be 2 (nl + 1) ++ be 4 (z - 1) else be 2 (nl + 1 + (z - 1)) ++ be 4 0).
  destruct (data_done enc 0 (zlen rest) fs iv0 a (aux ++ sub) szs ((sb + 1) mod 65536)
              (wb_put (be (Z.to_nat nl) z ++ [b]) w1) hd iv p r rest L Q1 A) as (a' & w' & O' & S' & A' & D').
  exists a', w'. split; [exact O'|]. split.
  { rewrite S', Q2, S1. unfold enc_nal. fold z enc. rewrite <- !app_assoc. cbn [app]. now destruct enc. }
  split.
  { unfold adv. fold enc z. replace (z - 1) with (zlen r) by lia. exact A'. }
  assert (EF : zlen (nal_bytes (b :: r) ++ rest) = nl + z + zlen rest) by (rewrite zlen_app, zlen_nal_bytes; reflexivity).
  rewrite EF. unfold packet_step. cbn [v_len v_packet].
  unfold nal_bytes. fold z. rewrite <- app_assoc.
  rewrite read_len_be by (rewrite ?P1; lia). rewrite Z.mul_0_l, Z.add_0_l.
  cbn [app]. cbn [v_frame v_state v_frames v_iv v_aes v_aux v_sizes v_subs v_wb v_head c_len g].
  destruct (Z.leb_spec z 0) as [C|_]; [lia|].
  destruct (Z.gtb_spec z (nl + z + zlen rest - nl)) as [C|_]; [lia|].
  replace (nl + z + zlen rest - (nl + z)) with (zlen rest) by lia.
  assert (Ec : (zlen rest >? 0) && (zlen rest <=? nl) = false) by lia. rewrite Ec.
  unfold nal_step. cbn [v_wb c_cap c_len g]. rewrite G1. cbn [bind v_packet c_codec g].
  destruct (Z.leb_spec z 0) as [C|_]; [lia|]. cbv zeta. rewrite Sl.
  cbn [v_len v_frame v_frames v_iv v_aes v_aux v_sizes v_subs v_head].
  replace (sub_bytes (b :: r)) with sub.
  2:{ unfold sub, sub_bytes, protect. fold enc z. destruct enc; cbn [fst snd]; [reflexivity|]. do 2 f_equal. lia. }
  rewrite <- D'. f_equal. unfold sub. destruct enc; unfold add_subsample; cbn [v_state v_len v_packet v_frame v_frames v_iv v_aes v_aux v_sizes v_subs v_wb v_head];
    f_equal; lia.
Qed.

Lemma flatn_cons n ns : flatn (n :: ns) = nal_bytes n ++ flatn ns.
Proof. reflexivity. Qed.

Lemma flatn_rest ns : Forall ok_nal ns -> flatn ns = [] /\ ns = [] \/ nl < zlen (flatn ns).
Proof.
  intro F. destruct F as [|n ns (B & Zn) F]; [left; auto|right]. rewrite flatn_cons, zlen_app, zlen_nal_bytes.
  pose proof (zlen_nonneg (flatn ns)). lia.
Qed.

(* The nal units of a frame, from a state in the frame. *)
Lemma nals_rounds ns : Forall ok_nal ns -> ns <> [] -> forall fuel fs iv0 a aux szs sb w hd iv p,
  length iv = 8%nat -> ok_wb cap w -> at_ E iv p a -> (length ns <= S fuel)%nat -> sb + zlen ns < 65536 -> 0 <= sb ->
  exists a' w', ok_wb cap w' /\ stream w' = stream w ++ enc_nals iv p ns /\
    bind (packet_step g (Vst PacketSize (Z.to_nat nl) 0 (zlen (flatn ns)) fs iv0 a aux szs sb w hd) (flatn ns))
       (fun '(v, src) => rounds g fuel v src) =
    close (Vst PacketSize (Z.to_nat nl) 0 0 fs iv0 a' (aux ++ subs_bytes ns) szs (sb + zlen ns) w' hd).
Proof.
  induction 1 as [|n ns Hn F IH]; intros Ne fuel fs iv0 a aux szs sb w hd iv p L O A Hf Hs H0; [congruence|].
  rewrite zlen_cons in Hs. pose proof (zlen_nonneg ns) as Zn.
  destruct (packet_ok n (flatn ns) fs iv0 a aux szs sb w hd iv p Hn L O A) as (a1 & w1 & O1 & S1 & A1 & P1).
  { destruct (flatn_rest ns F) as [(-> & _)|]; auto. }
  rewrite flatn_cons, P1. rewrite Z.mod_small by lia.
  destruct (flatn_rest ns F) as [(E0 & E1)|Hr].
  - subst ns. change (flatn []) with (@nil Z). exists a1, w1. split; [exact O1|]. split.
    { cbn [enc_nals]. now rewrite app_nil_r. }
    unfold subs_bytes. cbn [map concat]. rewrite app_nil_r. rewrite zlen_cons. change (zlen (@nil Z)) with 0. change (zlen (@nil (list Z))) with 0.
    replace (sb + (1 + 0)) with (sb + 1) by lia.
    match goal with |- bind (bind ?x _) _ = ?y => change x with y; destruct y as [v|] end; cbn [bind]; [|reflexivity].
    now destruct fuel.
  - assert (Ns : ns <> []) by (intros ->; change (zlen (flatn [])) with 0 in Hr; lia).
    destruct fuel as [|fuel]; [destruct ns; [congruence|cbn [length] in Hf; lia]|].
    destruct (IH Ns fuel fs iv0 a1 (aux ++ sub_bytes n) szs (sb + 1) w1 hd iv (p + adv n)) as (a2 & w2 & O2 & S2 & R2); auto; try lia.
    { cbn [length] in Hf. lia. }
    exists a2, w2. split; [exact O2|]. split.
    { rewrite S2, S1, <- app_assoc. reflexivity. }
    replace (aux ++ subs_bytes (n :: ns)) with ((aux ++ sub_bytes n) ++ subs_bytes ns) by (rewrite <- app_assoc; reflexivity).
    rewrite zlen_cons. replace (sb + (1 + zlen ns)) with (sb + 1 + zlen ns) by lia. rewrite <- R2.
    unfold close at 1. cbn [v_frame]. destruct (Z.gtb_spec (zlen (flatn ns)) 0) as [_|C]; [|lia].
    cbn [bind]. destruct (flatn ns) as [|b r] eqn:Ef; [change (zlen (@nil Z)) with 0 in Hr; lia|].
    cbn [rounds]. unfold step. cbn [v_state v_frame]. destruct (Z.leb_spec (zlen (b :: r)) 0) as [C|_]; [lia|]. reflexivity.
Qed.

(* ------------------------------------------------------------------ *)
(* Between frames                                                       *)

Definition entry_bytes (iv : list Z) (ns : list (list Z)) : list Z := iv ++ be 2 (zlen ns) ++ subs_bytes ns.

Definition between (v : vst) (fs : list Z) (iv aux szs out : list Z) : Prop :=
  exists a sb w, v = Vst PacketSize (Z.to_nat nl) 0 0 fs iv a aux szs sb w None /\ ok_wb cap w /\ stream w = out.

Lemma zlen_subs_bytes ns : zlen (subs_bytes ns) = 6 * zlen ns.
Proof.
  induction ns as [|n ns IH]; [reflexivity|]. unfold subs_bytes in *. cbn [map concat].
  rewrite zlen_app, IH, zlen_cons. unfold sub_bytes. rewrite zlen_app, !zlen_be. lia.
Qed.

Lemma end_frame_ok st len pk fr fs iv0 a aux iv ns szs w hd : length iv = 8%nat ->
  end_frame (Vst st len pk fr fs iv0 a ((aux ++ iv ++ [0; 0]) ++ subs_bytes ns) szs (zlen ns) w hd) =
  Vst st len pk fr fs iv0 a (aux ++ entry_bytes iv ns) (szs ++ [(10 + 6 * zlen ns) mod 256]) (zlen ns) w hd.
Proof.
  intro L. unfold end_frame. cbn [v_state v_len v_packet v_frame v_frames v_iv v_aes v_aux v_sizes v_subs v_wb v_head].
  f_equal; [|do 3 f_equal; lia].
  assert (Zi : zlen iv = 8) by (unfold zlen; rewrite L; reflexivity).
  replace (zlen ((aux ++ iv ++ [0; 0]) ++ subs_bytes ns) - (10 + zlen ns * 6) + 8) with (zlen (aux ++ iv)).
  2:{ rewrite !zlen_app, zlen_subs_bytes. change (zlen [0; 0]) with 2. lia. }
  replace ((aux ++ iv ++ [0; 0]) ++ subs_bytes ns) with ((aux ++ iv) ++ [0; 0] ++ subs_bytes ns) by now rewrite <- !app_assoc.
  assert (En : Z.to_nat (zlen (aux ++ iv)) = length (aux ++ iv)) by (unfold zlen; apply Nat2Z.id). rewrite En.
  rewrite firstn_app, Nat.sub_diag, firstn_all. change (firstn 0 ([0; 0] ++ subs_bytes ns)) with (@nil Z). rewrite app_nil_r.
  rewrite skipn_app. rewrite skipn_all2 by lia. replace (length (aux ++ iv) + 2 - length (aux ++ iv))%nat with 2%nat by lia.
  cbn [skipn app]. unfold entry_bytes. now rewrite <- !app_assoc.
Qed.

Lemma empty_frame v fs iv aux szs out fuel src : between v (0 :: fs) iv aux szs out -> fs <> [] -> src <> [] ->
  length iv = 8%nat ->
  exists v', between v' fs (incr iv) (aux ++ entry_bytes iv []) (szs ++ [10]) out /\
    rounds g (S (S fuel)) v src = rounds g fuel v' src.
Proof.
  intros (a & sb & w & -> & O & S') Nf Ns L. destruct src as [|b src]; [congruence|]. set (s := b :: src).
  destruct fs as [|f fs]; [congruence|].
  destruct (data_done true (Z.to_nat nl) 0 (f :: fs) (incr iv) (set_iv iv) (aux ++ iv ++ [0; 0]) szs 0 w None iv 0 [] s L O (at_set_iv E iv))
    as (a' & w' & O' & S2 & A' & D').
  cbn [ctr] in S2. rewrite app_nil_r in S2. change (zlen (@nil Z)) with 0 in D'. cbn [app] in D'.
  eexists. split.
  2:{ unfold s at 1. cbn [rounds]. fold s. unfold step at 1. cbn [v_state v_frame]. change (0 <=? 0) with true. cbv iota.
    unfold start_frame. cbn [v_frames bind v_frame c_len g v_state v_len v_packet v_iv v_aux v_sizes v_wb v_head v_aes v_subs].
    destruct (Z.leb_spec 0 nl) as [_|C]; [|lia]. change (0 <=? 0) with true. cbv iota. cbn [bind].
    unfold s at 1. cbn [rounds]. fold s. unfold step at 1. cbn [v_state]. fold g. rewrite D'.
    unfold close. cbn [v_frame]. change (0 >? 0) with false. cbv iota zeta.
    replace (aux ++ iv ++ [0; 0]) with ((aux ++ iv ++ [0; 0]) ++ subs_bytes []) by apply app_nil_r.
    change 0 with (zlen (@nil (list Z))) at 3. rewrite end_frame_ok by auto.
    cbn [v_frames]. cbn [bind]. reflexivity. }
  exists a', 0, w'. split; [exact (end_frame_ok PacketSize _ 0 0 (f :: fs) (incr iv) a' aux iv [] szs w' None L)|].
  split; [exact O'|]. now rewrite S2.
Qed.

Lemma full_frame v fs iv aux szs out fuel ns : between v (zlen (flatn ns) :: fs) iv aux szs out ->
  Forall ok_nal ns -> ns <> [] -> zlen ns < 65536 -> length iv = 8%nat -> (length ns <= fuel)%nat ->
  match fs with
  | _ :: _ =>
      exists v', between v' fs (incr iv) (aux ++ entry_bytes iv ns) (szs ++ [(10 + 6 * zlen ns) mod 256]) (out ++ enc_nals iv 0 ns) /\
        rounds g fuel v (flatn ns) = Ok v'
  | [] =>
      exists F, rounds g fuel v (flatn ns) =
        bind (hdr (aux ++ entry_bytes iv ns) (szs ++ [(10 + 6 * zlen ns) mod 256])) (fun h => Ok (F h)) /\
        forall h, v_head (F h) = Some h /\ w_out (v_wb (F h)) = out ++ enc_nals iv 0 ns
  end.
Proof.
  intros (a & sb & w & -> & O & S') Fn Ne Zn L Hf. destruct fuel as [|fuel]; [destruct ns; [congruence|cbn in Hf; lia]|].
  destruct (nals_rounds ns Fn Ne fuel fs (incr iv) (set_iv iv) (aux ++ iv ++ [0; 0]) szs 0 w None iv 0 L O (at_set_iv E iv) Hf ltac:(lia) ltac:(lia))
    as (a' & w' & O' & S2 & R).
  assert (Hr : nl < zlen (flatn ns)) by (destruct (flatn_rest ns Fn) as [(_ & C)|]; [congruence|auto]).
  assert (St : rounds g (S fuel) (Vst PacketSize (Z.to_nat nl) 0 0 (zlen (flatn ns) :: fs) iv a aux szs sb w None) (flatn ns) =
    close (Vst PacketSize (Z.to_nat nl) 0 0 fs (incr iv) a' ((aux ++ iv ++ [0; 0]) ++ subs_bytes ns) szs (0 + zlen ns) w' None)).
  { rewrite <- R. destruct (flatn ns) as [|b r] eqn:Ef; [change (zlen (@nil Z)) with 0 in Hr; lia|]. rewrite <- Ef in *.
    transitivity (bind (step g (Vst PacketSize (Z.to_nat nl) 0 0 (zlen (flatn ns) :: fs) iv a aux szs sb w None) (flatn ns))
                    (fun '(v, src) => rounds g fuel v src)).
    { rewrite Ef. reflexivity. }
    f_equal. unfold step. cbn [v_state v_frame]. change (0 <=? 0) with true. cbv iota.
    unfold start_frame. cbn [v_frames bind v_frame c_len g v_state v_len v_packet v_iv v_aux v_sizes v_wb v_head v_aes v_subs].
    destruct (Z.leb_spec (zlen (flatn ns)) nl) as [C|_]; [lia|]. reflexivity. }
  unfold close in St. cbn [v_frame] in St. change (0 >? 0) with false in St. cbv iota zeta in St. rewrite Z.add_0_l, end_frame_ok in St by auto.
  cbn [v_state v_len v_packet v_frame v_frames v_iv v_aes v_aux v_sizes v_subs v_wb v_head] in St.
  rewrite S' in S2. destruct fs as [|f fs].
  - eexists. split; [exact St|]. intro h. cbn [v_head v_wb]. split; [reflexivity|]. cbn [wb_flush w_out]. exact S2.
  - eexists. split; [|exact St]. exists a', (zlen ns), w'. auto.
Qed.

(* ------------------------------------------------------------------ *)
(* All the frames                                                       *)

Fixpoint auxs (q : Z) (nss : list (list (list Z))) : list Z :=
  match nss with [] => [] | ns :: nss => entry_bytes (be 8 q) ns ++ auxs (q + 1) nss end.
Fixpoint encs (q : Z) (nss : list (list (list Z))) : list Z :=
  match nss with [] => [] | ns :: nss => enc_nals (be 8 q) 0 ns ++ encs (q + 1) nss end.
Definition aux_sizes (nss : list (list (list Z))) : list Z := map (fun ns => (10 + 6 * zlen ns) mod 256) nss.

Lemma empties pend : forall v fs q aux szs out fuel src,
  between v (repeat 0 pend ++ fs) (be 8 q) aux szs out -> fs <> [] -> src <> [] ->
  exists v', between v' fs (be 8 (q + Z.of_nat pend)) (aux ++ auxs q (repeat [] pend)) (szs ++ aux_sizes (repeat [] pend)) out /\
    rounds g (2 * pend + fuel) v src = rounds g fuel v' src.
Proof.
  induction pend as [|pend IH]; intros v fs q aux szs out fuel src B Nf Ns.
  - exists v. cbn [repeat auxs aux_sizes map app] in *. rewrite !app_nil_r, Z.add_0_r. split; [exact B|reflexivity].
  - cbn [repeat app] in B.
    destruct (empty_frame v (repeat 0 pend ++ fs) (be 8 q) aux szs out (2 * pend + fuel) src B) as (v1 & B1 & R1); auto.
    { intro C. apply app_eq_nil in C. tauto. }
    rewrite incr_be in B1. destruct (IH _ _ _ _ _ _ fuel src B1 Nf Ns) as (v2 & B2 & R2).
    exists v2. split.
    + cbn [repeat auxs aux_sizes map]. rewrite <- !app_assoc in B2. replace (q + Z.of_nat (S pend)) with (q + 1 + Z.of_nat pend) by lia. exact B2.
    + replace (2 * S pend + fuel)%nat with (S (S (2 * pend + fuel))) by lia. now rewrite R1, R2.
Qed.

Lemma flatn_length ns : Forall ok_nal ns -> (length ns <= length (flatn ns))%nat.
Proof.
  induction 1 as [|n ns (_ & Zn) F IH]; [cbn; lia|]. rewrite flatn_cons, app_length. cbn [length].
  pose proof (zlen_nal_bytes n) as Z0. unfold zlen in *. lia.
Qed.

Lemma writes_ok nss : Forall (fun ns => Forall ok_nal ns /\ zlen ns < 65536) nss ->
  last nss [] <> [] -> forall pend v q aux szs out,
  between v (repeat 0 pend ++ map (fun ns => zlen (flatn ns)) nss) (be 8 q) aux szs out ->
  exists F, video_writes g v (map flatn nss) =
    bind (hdr (aux ++ auxs q (repeat [] pend ++ nss)) (szs ++ aux_sizes (repeat [] pend ++ nss))) (fun h => Ok (F h)) /\
    forall h, v_head (F h) = Some h /\ w_out (v_wb (F h)) = out ++ encs (q + Z.of_nat pend) nss.
Proof.
  induction 1 as [|ns nss (Fn & Zn) F IH]; intros Hl pend v q aux szs out B; [cbn in Hl; congruence|].
  cbn [map video_writes]. destruct ns as [|n ns0] eqn:En.
  - change (flatn []) with (@nil Z). cbn [video_write rounds bind].
    assert (Hl' : last nss [] <> []) by (destruct nss; [cbn in Hl; congruence|exact Hl]).
    replace (video_write g v []) with (Ok v) by reflexivity. cbn [bind].
    destruct (IH Hl' (S pend) v q aux szs out) as (G & E1 & E2).
    { replace (repeat 0 (S pend) ++ map (fun ns => zlen (flatn ns)) nss)
        with (repeat 0 pend ++ map (fun ns => zlen (flatn ns)) ([] :: nss)); [exact B|].
      cbn [map]. change (zlen (flatn [])) with 0. change (repeat 0 (S pend)) with (0 :: repeat 0 pend). rewrite (repeat_cons pend 0), <- app_assoc. reflexivity. }
    exists G. assert (Er : repeat [] pend ++ [] :: nss = repeat (@nil (list Z)) (S pend) ++ nss).
    { change (repeat (@nil (list Z)) (S pend)) with ([] :: repeat (@nil (list Z)) pend). rewrite (repeat_cons pend), <- app_assoc. reflexivity. }
    rewrite Er. split; [exact E1|]. intro h. destruct (E2 h) as (E3 & E4). split; [exact E3|].
    rewrite E4. cbn [encs enc_nals app]. do 2 f_equal. lia.
  - rewrite <- En in *. assert (Ne : ns <> []) by (rewrite En; discriminate). clear En n ns0.
    assert (Nd : flatn ns <> []).
    { destruct (flatn_rest ns Fn) as [(_ & C)|C]; [congruence|]. intro C2. rewrite C2 in C. change (zlen (@nil Z)) with 0 in C. lia. }
    assert (Hfr : length (v_frames v) = (pend + S (length nss))%nat).
    { destruct B as (a & sb & w & -> & _). cbn [v_frames]. rewrite app_length, repeat_length, map_length. reflexivity. }
    cbn [map] in B. unfold video_write. rewrite Hfr.
    replace (S (length (flatn ns) + 2 * (pend + S (length nss))))%nat
      with (2 * pend + S (length (flatn ns) + 2 * S (length nss)))%nat by lia.
    destruct (empties pend v (zlen (flatn ns) :: map (fun ns => zlen (flatn ns)) nss) q aux szs out
                (S (length (flatn ns) + 2 * S (length nss))) (flatn ns) B) as (v1 & B1 & R1); auto; [discriminate|].
    rewrite R1.
    pose proof (full_frame v1 _ _ _ _ _ (S (length (flatn ns) + 2 * S (length nss))) ns B1 Fn Ne Zn (be_length 8 _)) as FF.
    assert (Hfl := flatn_length ns Fn). specialize (FF ltac:(lia)).
    assert (Ea : forall l, auxs q (repeat [] pend ++ l) = auxs q (repeat [] pend) ++ auxs (q + Z.of_nat pend) l).
    { clear. revert q. induction pend as [|pend IH]; intros q l; cbn [repeat app auxs]; [now rewrite Z.add_0_r|].
      rewrite IH, <- app_assoc. do 3 f_equal. lia. }
    assert (Es : forall l, aux_sizes (repeat [] pend ++ l) = aux_sizes (repeat [] pend) ++ aux_sizes l)
      by (intro l; unfold aux_sizes; apply map_app).
    rewrite Ea, Es. cbn [auxs aux_sizes map encs]. fold (aux_sizes nss).
    destruct nss as [|ns2 nss].
    + cbn [map] in FF |- *. destruct FF as (G & R2 & H2). rewrite R2. cbn [auxs encs aux_sizes map]. rewrite !app_nil_r.
      exists G. split; [|exact H2]. rewrite !app_assoc. destruct (hdr _ _); reflexivity.
    + cbn [map] in FF. destruct FF as (v2 & B2 & R2). rewrite R2. cbn [bind]. rewrite incr_be in B2.
      destruct (IH Hl 0%nat v2 (q + Z.of_nat pend + 1) _ _ _ B2) as (G & E1 & E2).
      exists G. cbn [repeat app] in E1. split.
      * rewrite E1. rewrite !app_assoc in *. cbn [app]. rewrite <- !app_assoc. reflexivity.
      * intro h. destruct (E2 h) as (E3 & E4). split; [exact E3|]. rewrite E4, <- app_assoc. do 2 f_equal.
        f_equal. lia.
Qed.

End video.
