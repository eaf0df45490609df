(* The write buffer, and the encryption of audio with cbcs. *)
From Coq Require Import ZArith List Bool Lia ZifyBool Arith.
From Verif Require Import Bytes HlsModel HlsSpec HlsProofs HlsProofs2 HlsProofs3 HlsProofs4 CbcsModel CbcsSpec.
Import ListNotations.
Open Scope Z_scope.

(* ----- the write buffer *)
Definition total (w : wb) : list Z := w_sent w ++ match w_buf w with Some b => b | None => [] end.
Definition wok (cap : Z) (w : wb) : Prop := w_used w <= cap.
Definition dirty (w : wb) : Prop := exists b, w_buf w = Some b /\ b <> [].

Lemma w_write_ok cap l : 1 <= cap -> forall w, wok cap w -> wok cap (w_write cap w l) /\ total (w_write cap w l) = total w ++ l /\ (l <> [] \/ dirty w -> dirty (w_write cap w l)).
Proof.
  intros Hc. induction l as [|x l IH]; intros w K; cbn [w_write].
  - rewrite app_nil_r. split; [exact K|]. split; [reflexivity|]. intros [H|H]; [congruence | exact H].
  - set (w1 := if w_cap cap w <=? w_used w then w_flush true w else w).
    assert (exists b, w_buf w1 = Some b /\ len b < cap /\ total w = w_sent w1 ++ b) as (b & B1 & B2 & B3).
    { unfold w1, w_cap, w_used, total, w_flush, wok in *. destruct w as [s [b|]]; cbn [w_sent w_buf] in *.
      - destruct (cap <=? len b) eqn:Q; cbn [w_buf w_sent]; eexists; (split; [reflexivity|]); rewrite ?app_nil_r; (split; [unfold w_used in K; cbn [w_buf] in K; change (len []) with 0; lia | reflexivity]).
      - cbn. eexists; (split; [reflexivity|]). rewrite ?app_nil_r. split; [change (len []) with 0; lia | reflexivity]. }
    rewrite B1. destruct (IH (Wb (w_sent w1) (Some (b ++ [x])))) as (I1 & I2 & I3).
    + unfold wok, w_used. cbn [w_buf]. unfold len in *. rewrite app_length. cbn [length]. lia.
    + split; [exact I1|]. split; [rewrite I2, B3; unfold total; cbn [w_sent w_buf]; rewrite <- !app_assoc; reflexivity|]. intros _. apply I3. right. exists (b ++ [x]). split; [reflexivity | destruct b; discriminate].
Qed.

Lemma w_add_ok cap w n o : 0 <= n <= cap -> len o <= n -> wok cap w -> 0 < n ->
  exists w', w_add cap w n o = Ok w' /\ wok cap w' /\ total w' = total w ++ o /\ (o <> [] -> dirty w').
Proof.
  intros Hn Ho K Hp. unfold w_add. set (w1 := if w_cap cap w <? w_used w + n then w_flush true w else w).
  assert (exists b, w_buf w1 = Some b /\ len b + n <= cap /\ total w = w_sent w1 ++ b) as (b & B1 & B2 & B3).
  { unfold w1, w_cap, w_used, total, w_flush, wok in *. destruct w as [s [b|]]; cbn [w_sent w_buf] in *.
    - destruct (cap <? len b + n) eqn:Q; cbn [w_buf w_sent]; eexists; (split; [reflexivity|]); rewrite ?app_nil_r; (split; [change (len []) with 0; lia | reflexivity]).
    - assert (0 <? 0 + n = true) as -> by lia. cbn [w_buf w_sent]. eexists; (split; [reflexivity|]). rewrite ?app_nil_r. split; [change (len []) with 0; lia | reflexivity]. }
  unfold w_cap. rewrite B1. assert (cap <? n = false) as -> by lia. assert (n <? len o = false) as -> by lia. eexists. split; [reflexivity|].
  split; [unfold wok, w_used; cbn [w_buf]; unfold len in *; rewrite app_length; lia|]. split; [rewrite B3; unfold total; cbn [w_sent w_buf]; rewrite app_assoc; reflexivity|].
  intros NE. exists (b ++ o). split; [reflexivity | destruct b; [exact NE | discriminate]].
Qed.
Lemma w_add_none cap w : 0 <= cap -> wok cap w -> w_add cap w 0 [] = Ok w.
Proof.
  intros Hc K. unfold w_add, wok, w_cap, w_used in *. destruct w as [s [b|]]; cbn [w_buf] in *.
  - assert (cap <? len b + 0 = false) as -> by lia. cbn [w_buf w_sent]. assert (cap <? 0 = false) as -> by lia. change (0 <? len []) with false. cbv iota. rewrite app_nil_r. reflexivity.
  - reflexivity.
Qed.

Lemma next_frame_pos fs : next_frame fs = [] \/ exists s r, next_frame fs = s :: r /\ 0 < s.
Proof. induction fs as [|s fs IH]; [left; reflexivity|]. cbn [next_frame]. destruct (0 <? s) eqn:Q; [right; exists s, fs; split; [reflexivity | lia] | exact IH]. Qed.

Section Cipher.
Variables E D : list Z -> list Z.
Hypothesis ED : cipher E D.
Variable iv : list Z.
Hypothesis IV : is_block iv.
Variable cap : Z.
Hypothesis Hcap : 16 <= cap.

Lemma write_enc_ok w c l : cbc_good c -> (length (c_buf c) < 16)%nat -> Forall is_byte l -> wok cap w -> len l <= cap - cap mod 16 ->
  exists w', write_encrypted E cap w c l = Ok (w', snd (cbc_update E c l)) /\ wok cap w' /\ total w' = total w ++ fst (cbc_update E c l).
Proof.
  intros G K B W L. unfold write_encrypted. destruct l as [|x l'].
  - rewrite update_nil by exact K. change (round_down (len [] + 15)) with 0. rewrite w_add_none by (lia || exact W). cbn [bind fst snd]. exists w. rewrite app_nil_r. split; [reflexivity|]. split; [exact W | reflexivity].
  - set (l := x :: l') in *. destruct (update_len E D c l ED (proj1 G) (proj2 G) B) as (U1 & _ & _). destruct (cbc_update E c l) as [o c']. cbn [fst snd] in *.
    assert (0 < len l) as P by (unfold l, len; cbn [length]; lia).
    assert (len o <= round_down (len l + 15)) as Lo.
    { unfold round_down, len. rewrite U1. pose proof (Nat.div_mod (length (c_buf c) + length l) 16 ltac:(lia)). pose proof (Nat.mod_upper_bound (length (c_buf c) + length l) 16 ltac:(lia)). lia. }
    assert (0 < round_down (len l + 15) <= cap) as Hn by (unfold round_down; lia).
    destruct (w_add_ok cap w (round_down (len l + 15)) o ltac:(lia) Lo W ltac:(lia)) as (w' & WA & W1 & W2 & _). rewrite WA. cbn [bind]. exists w'. split; [reflexivity|]. split; [exact W1 | exact W2].
Qed.

(* ----- audio *)
Definition enc_frame (u : list Z) : list Z :=
  let n := (16 * (length u / 16))%nat in fst (cbc_update E (cbc_init iv) (firstn n u)) ++ skipn n u.
Lemma enc_frame_nil : enc_frame [] = [].
Proof. reflexivity. Qed.

Definition rest_out (st : aud) (L : list Z) : list Z :=
  let f := Z.to_nat (a_left st - a_trail st) in fst (cbc_update E (a_cbc st) (firstn f L)) ++ skipn f L.

Definition in_frame (st : aud) (L : list Z) : Prop :=
  Forall is_byte L /\ len L = a_left st /\ len L <= cap - cap mod 16 /\ 0 <= a_trail st
  /\ cbc_good (a_cbc st) /\ (length (c_buf (a_cbc st)) < 16)%nat
  /\ (Z.of_nat (length (c_buf (a_cbc st))) + Z.max 0 (a_left st - a_trail st)) mod 16 = 0.

Definition frame_good (f : list Z) : Prop := Forall is_byte f /\ len f <= cap - cap mod 16.

Inductive atodo (st : aud) (R T : list Z) : Prop :=
  | ADone : R = [] -> w_buf (a_wb st) = None -> T = total (a_wb st) -> atodo st R T
  | AIn L fs : L <> [] -> R = L ++ concat fs -> in_frame st L -> Forall frame_good fs -> a_frames st = map len fs ->
      T = total (a_wb st) ++ rest_out st L ++ concat (map enc_frame fs) -> atodo st R T
  | ANext f fs : f <> [] -> R = f ++ concat fs -> a_left st = 0 -> Forall frame_good (f :: fs) -> a_frames st = len f :: map len fs ->
      T = total (a_wb st) ++ enc_frame f ++ concat (map enc_frame fs) -> atodo st R T.

Lemma next_frame_list fs : Forall frame_good fs ->
  (next_frame (map len fs) = [] /\ concat fs = [] /\ concat (map enc_frame fs) = []) \/
  exists f gs, next_frame (map len fs) = len f :: map len gs /\ f <> [] /\ concat fs = f ++ concat gs /\ concat (map enc_frame fs) = enc_frame f ++ concat (map enc_frame gs) /\ Forall frame_good (f :: gs).
Proof.
  induction fs as [|f fs IH]; intros H; [left; repeat split|]. cbn [map next_frame]. destruct f as [|x f].
  - change (0 <? len []) with false. cbv iota. cbn [concat app]. rewrite enc_frame_nil. cbn [app]. apply IH. apply (Forall_inv_tail H).
  - assert (0 <? len (x :: f) = true) as -> by (unfold len; cbn [length]; lia). right. exists (x :: f), fs. split; [reflexivity|]. split; [discriminate|]. split; [reflexivity|]. split; [reflexivity | exact H].
Qed.

(* the part P of a buffer that belongs to the frame *)
Lemma rest_split st P L : in_frame st (P ++ L) ->
  let f := Z.to_nat (a_left st - a_trail st) in
  forall w, let st' := Aud (a_frames st) (a_left st - len P) (a_trail st) (snd (cbc_update E (a_cbc st) (firstn f P))) w in
  rest_out st (P ++ L) = (fst (cbc_update E (a_cbc st) (firstn f P)) ++ skipn f P) ++ rest_out st' L /\ in_frame st' L.
Proof.
  intros (B & H1 & H2 & H3 & H4 & H5 & H6) f w st'. apply Forall_app in B. destruct B as [BP BL].
  assert (len (P ++ L) = len P + len L) as LA by (unfold len; rewrite app_length; lia). rewrite LA in *. assert (0 <= len P /\ 0 <= len L) as [LP LL] by (unfold len; lia).
  assert (in_frame st' L) as I.
  { unfold in_frame, st'. cbn [a_left a_trail a_cbc]. split; [exact BL|]. split; [lia|]. split; [lia|]. split; [exact H3|].
    split; [apply (update_good E D ED); [exact H4 | apply Forall_firstn; exact BP]|]. split; [rewrite update_buf; apply Nat.mod_upper_bound; lia|].
    rewrite update_buf, firstn_length, Nat2Z.inj_mod. change (Z.of_nat 16) with 16. unfold f, len in *. lia. }
  split; [|exact I]. unfold rest_out. fold f. cbn [a_left a_trail a_cbc st'].
  destruct (Nat.le_gt_cases f (length P)) as [C|C].
  - rewrite firstn_le_app, skipn_le_app by lia. assert (Z.to_nat (a_left st - len P - a_trail st) = O) as -> by (unfold f, len in *; lia). rewrite firstn_O, skipn_O.
    destruct I as (_ & _ & _ & _ & _ & I & _). cbn [a_cbc st'] in I. rewrite (update_nil E (snd (cbc_update E (a_cbc st) (firstn f P)))) by exact I. cbn [fst app]. rewrite <- app_assoc. reflexivity.
  - rewrite firstn_ge_app, skipn_ge_app by lia. assert (firstn f P = P) as -> by (apply firstn_all2; lia). assert (skipn f P = []) as -> by (apply skipn_all2; lia). rewrite app_nil_r.
    rewrite update_app. cbn [fst]. rewrite <- app_assoc. assert (Z.to_nat (a_left st - len P - a_trail st) = f - length P)%nat as -> by (unfold f, len in *; lia). reflexivity.
Qed.

Lemma start_in u fs w : Forall is_byte u -> len u <= cap - cap mod 16 ->
  in_frame (Aud fs (len u) (Z.land (len u) 15) (cbc_init iv) w) u /\ rest_out (Aud fs (len u) (Z.land (len u) 15) (cbc_init iv) w) u = enc_frame u.
Proof.
  intros B L. change 15 with (Z.ones 4). rewrite Z.land_ones by lia. change (2 ^ 4) with 16. assert (0 <= len u) as P by (unfold len; lia). split.
  - unfold in_frame. cbn [a_left a_trail a_cbc cbc_init c_buf length]. split; [exact B|]. split; [reflexivity|]. split; [exact L|]. split; [lia|]. split; [split; [exact IV | apply Forall_nil]|]. split; [lia|]. change (Z.of_nat 0) with 0. lia.
  - unfold rest_out, enc_frame. cbn [a_left a_trail a_cbc]. assert (Z.to_nat (len u - len u mod 16) = 16 * (length u / 16))%nat as ->; [|reflexivity]. unfold len in *. pose proof (Nat.div_mod (length u) 16 ltac:(lia)). pose proof (Nat.mod_upper_bound (length u) 16 ltac:(lia)). lia.
Qed.

(* one round of the loop: with a frame started *)
Definition around (fuel : nat) (st : aud) (buf : list Z) : res aud :=
  bind (if a_trail st <? a_left st then
          let k := Z.to_nat (Z.min (a_left st - a_trail st) (len buf)) in
          bind (write_encrypted E cap (a_wb st) (a_cbc st) (firstn k buf)) (fun r =>
            Ok (Aud (a_frames st) (a_left st - Z.of_nat k) (a_trail st) (snd r) (fst r), skipn k buf))
        else Ok (st, buf)) (fun r =>
  let '(st, buf) := r in
  let '(st, buf) :=
    if a_left st <=? a_trail st then
      let k := Z.to_nat (Z.min (len buf) (a_left st)) in
      (Aud (a_frames st) (a_left st - Z.of_nat k) (a_trail st) (a_cbc st) (w_write cap (a_wb st) (firstn k buf)), skipn k buf)
    else (st, buf) in
  if 0 <? a_left st then Ok st
  else
    match next_frame (a_frames st) with
    | [] => Ok (Aud [] (a_left st) (a_trail st) (a_cbc st) (w_flush false (a_wb st)))
    | fs => aud_loop E iv cap fuel (Aud fs (a_left st) (a_trail st) (a_cbc st) (a_wb st)) buf
    end).
Lemma aud_eq fuel st x b : aud_loop E iv cap (S fuel) st (x :: b) =
  bind (if a_left st <=? 0 then
          match a_frames st with
          | [] => Err
          | s :: fs => Ok (Aud fs s (Z.land s 15) (cbc_init iv) (a_wb st))
          end
        else Ok st) (fun st => around fuel st (x :: b)).
Proof. reflexivity. Qed.

Lemma around_eq fuel st buf st1 buf1 :
  (if a_trail st <? a_left st then
     let k := Z.to_nat (Z.min (a_left st - a_trail st) (len buf)) in
     bind (write_encrypted E cap (a_wb st) (a_cbc st) (firstn k buf)) (fun r =>
       Ok (Aud (a_frames st) (a_left st - Z.of_nat k) (a_trail st) (snd r) (fst r), skipn k buf))
   else Ok (st, buf)) = Ok (st1, buf1) ->
  around fuel st buf =
    let '(st, buf) :=
      if a_left st1 <=? a_trail st1 then
        let k := Z.to_nat (Z.min (len buf1) (a_left st1)) in
        (Aud (a_frames st1) (a_left st1 - Z.of_nat k) (a_trail st1) (a_cbc st1) (w_write cap (a_wb st1) (firstn k buf1)), skipn k buf1)
      else (st1, buf1) in
    if 0 <? a_left st then Ok st
    else
      match next_frame (a_frames st) with
      | [] => Ok (Aud [] (a_left st) (a_trail st) (a_cbc st) (w_flush false (a_wb st)))
      | fs => aud_loop E iv cap fuel (Aud fs (a_left st) (a_trail st) (a_cbc st) (a_wb st)) buf
      end.
Proof. intros H. unfold around. cbv zeta in *. rewrite H. reflexivity. Qed.

Lemma around_mid fuel st P b' L : in_frame st (P ++ L) -> wok cap (a_wb st) -> (L = [] \/ b' = []) ->
  exists w', wok cap w' /\
    let f := Z.to_nat (a_left st - a_trail st) in
    let st' := Aud (a_frames st) (a_left st - len P) (a_trail st) (snd (cbc_update E (a_cbc st) (firstn f P))) w' in
    total w' = total (a_wb st) ++ fst (cbc_update E (a_cbc st) (firstn f P)) ++ skipn f P
    /\ around fuel st (P ++ b') = if 0 <? a_left st' then Ok st' else
        match next_frame (a_frames st') with
        | [] => Ok (Aud [] (a_left st') (a_trail st') (a_cbc st') (w_flush false (a_wb st')))
        | fs => aud_loop E iv cap fuel (Aud fs (a_left st') (a_trail st') (a_cbc st') (a_wb st')) b'
        end.
Proof.
  intros (B & H1 & H2 & H3 & H4 & H5 & H6) W S. apply Forall_app in B. destruct B as [BP BL].
  assert (len (P ++ L) = len P + len L) as LA by (unfold len; rewrite app_length; lia). rewrite LA in *. assert (0 <= len P /\ 0 <= len L) as [LP LL] by (unfold len; lia).
  assert (len (P ++ b') = len P + len b') as LB by (unfold len; rewrite app_length; lia). assert (0 <= len b') as Lb' by (unfold len; lia).
  assert (L = [] -> len L = 0) as SL by (intros ->; reflexivity). assert (b' = [] -> len b' = 0) as SB by (intros ->; reflexivity).
  set (f := Z.to_nat (a_left st - a_trail st)).
  (* the encrypted part *)
  assert (exists w1, wok cap w1 /\ total w1 = total (a_wb st) ++ fst (cbc_update E (a_cbc st) (firstn f P)) /\
    (if a_trail st <? a_left st then
      let k := Z.to_nat (Z.min (a_left st - a_trail st) (len (P ++ b'))) in
      bind (write_encrypted E cap (a_wb st) (a_cbc st) (firstn k (P ++ b'))) (fun r =>
        Ok (Aud (a_frames st) (a_left st - Z.of_nat k) (a_trail st) (snd r) (fst r), skipn k (P ++ b')))
     else Ok (st, P ++ b')) = Ok (Aud (a_frames st) (a_left st - len (firstn f P)) (a_trail st) (snd (cbc_update E (a_cbc st) (firstn f P))) w1, skipn f P ++ b')) as (w1 & W1 & T1 & E1).
  { destruct (a_trail st <? a_left st) eqn:Q.
    - cbv zeta. set (k := Z.to_nat (Z.min (a_left st - a_trail st) (len (P ++ b')))).
      assert (k = Nat.min f (length P)) as Ek by (unfold k, f; rewrite LB; unfold len in *; destruct S as [S|S]; [specialize (SL S) | specialize (SB S)]; lia).
      assert (firstn k (P ++ b') = firstn f P) as Fk.
      { rewrite firstn_le_app by lia. rewrite Ek. destruct (Nat.le_gt_cases f (length P)) as [C|C]; [rewrite Nat.min_l by lia; reflexivity | rewrite Nat.min_r by lia; rewrite firstn_all, firstn_all2 by lia; reflexivity]. }
      assert (skipn k (P ++ b') = skipn f P ++ b') as Sk.
      { rewrite skipn_le_app by lia. f_equal. rewrite Ek. destruct (Nat.le_gt_cases f (length P)) as [C|C]; [rewrite Nat.min_l by lia; reflexivity | rewrite Nat.min_r by lia; rewrite skipn_all, skipn_all2 by lia; reflexivity]. }
      rewrite Fk, Sk. destruct (write_enc_ok (a_wb st) (a_cbc st) (firstn f P) H4 H5 ltac:(apply Forall_firstn; exact BP) W) as (w1 & E1 & W1 & T1); [unfold len in *; rewrite firstn_length; lia|].
      exists w1. split; [exact W1|]. split; [exact T1|]. rewrite E1. cbn [bind fst snd]. assert (Z.of_nat k = len (firstn f P)) as -> by (unfold len; rewrite firstn_length; lia). reflexivity.
    - assert (f = O) as Ef by (unfold f; lia). rewrite Ef, firstn_O, skipn_O. rewrite update_nil by exact H5. cbn [fst snd app]. change (len []) with 0. exists (a_wb st). split; [exact W|]. split; [rewrite app_nil_r; reflexivity|].
      rewrite Z.sub_0_r. destruct st; reflexivity. }
  apply (around_eq fuel) in E1. cbn [bind a_left a_trail a_frames a_cbc a_wb] in E1.
  assert (len (firstn f P) = Z.min (Z.of_nat f) (len P)) as LF by (unfold len; rewrite firstn_length; lia).
  assert (len (skipn f P) = len P - Z.min (Z.of_nat f) (len P)) as LS by (unfold len in *; rewrite skipn_length; lia).
  destruct (a_left st - len (firstn f P) <=? a_trail st) eqn:Q; cbv zeta.
  - set (k := Z.to_nat (Z.min (len (skipn f P ++ b')) (a_left st - len (firstn f P)))) in *.
    assert (k = length (skipn f P)) as Ek.
    { unfold k. assert (len (skipn f P ++ b') = len (skipn f P) + len b') as -> by (unfold len; rewrite app_length; lia). rewrite LS, LF. unfold len in LS |- *. rewrite <- (Nat2Z.id (length (skipn f P))). rewrite LS. f_equal. unfold f, len in *. destruct S as [S|S]; [specialize (SL S) | specialize (SB S)]; lia. }
    rewrite Ek in E1. rewrite firstn_le_app, firstn_all, skipn_le_app, skipn_all in E1 by lia. cbn [app a_left a_trail a_frames a_cbc a_wb] in E1.
    destruct (w_write_ok cap (skipn f P) ltac:(lia) w1 W1) as (W2 & T2 & _). exists (w_write cap w1 (skipn f P)). split; [exact W2|]. split; [rewrite T2, T1, app_assoc; reflexivity|].
    rewrite E1. cbn [a_left a_trail a_frames a_cbc a_wb]. assert (a_left st - len (firstn f P) - Z.of_nat (length (skipn f P)) = a_left st - len P) as -> by (change (Z.of_nat (length (skipn f P))) with (len (skipn f P)); lia). reflexivity.
  - assert (skipn f P = []) as ES. { assert (len (skipn f P) = 0) as Z0 by (rewrite LS; unfold f, len in *; lia). destruct (skipn f P); [reflexivity | unfold len in Z0; cbn [length] in Z0; lia]. }
    rewrite ES in *. cbn [app]. exists w1. split; [exact W1|]. split; [rewrite app_nil_r; exact T1|].
    rewrite E1. cbn [a_left a_trail a_frames a_cbc a_wb app]. change (len []) with 0 in LS. assert (a_left st - len (firstn f P) = a_left st - len P) as -> by lia. reflexivity.
Qed.

Definition agood (fuel : nat) : Prop := forall st b R T, (length b <= fuel)%nat -> wok cap (a_wb st) -> atodo st (b ++ R) T ->
  exists st', aud_loop E iv cap fuel st b = Ok st' /\ wok cap (a_wb st') /\ atodo st' R T.

Lemma around_ok fuel st b R L fs T : agood fuel -> (length b <= S fuel)%nat -> b <> [] -> wok cap (a_wb st) -> L <> [] -> b ++ R = L ++ concat fs -> in_frame st L -> Forall frame_good fs -> a_frames st = map len fs ->
  T = total (a_wb st) ++ rest_out st L ++ concat (map enc_frame fs) ->
  exists st', around fuel st b = Ok st' /\ wok cap (a_wb st') /\ atodo st' R T.
Proof.
  intros IH LB NB W NL EQ I G FR ET. destruct (Nat.le_gt_cases (length L) (length b)) as [C|C].
  - assert (b = L ++ skipn (length L) b /\ skipn (length L) b ++ R = concat fs) as [B1 B2].
    { assert (firstn (length L) b = L) as F1.
      { apply (f_equal (firstn (length L))) in EQ. rewrite firstn_le_app in EQ by lia. rewrite firstn_le_app, firstn_all in EQ by lia. exact EQ. }
      split; [rewrite <- F1 at 1; symmetry; apply firstn_skipn|]. apply (f_equal (skipn (length L))) in EQ. rewrite skipn_le_app in EQ by lia. rewrite skipn_le_app, skipn_all in EQ by lia. exact EQ. }
    set (b' := skipn (length L) b) in *. rewrite B1. pose proof I as I0. rewrite <- (app_nil_r L) in I0.
    destruct (around_mid fuel st L b' [] I0 W (or_introl eq_refl)) as (w' & W' & T' & ->). destruct (rest_split st L [] I0 w') as [RO I'].
    set (f := Z.to_nat (a_left st - a_trail st)) in *. cbn [a_left a_trail a_frames a_cbc a_wb].
    assert (a_left st - len L = 0) as A0 by (destruct I as (_ & I & _); lia). rewrite A0 in *. change (0 <? 0) with false. cbv iota.
    assert (rest_out st L = fst (cbc_update E (a_cbc st) (firstn f L)) ++ skipn f L) as RL.
    { rewrite app_nil_r in RO. rewrite RO. unfold rest_out at 1. rewrite firstn_nil, skipn_nil, app_nil_r. cbn [a_cbc]. destruct I' as (_ & _ & _ & _ & _ & I' & _). cbn [a_cbc] in I'. rewrite (update_nil E (snd (cbc_update E (a_cbc st) (firstn f L)))) by exact I'. cbn [fst]. apply app_nil_r. }
    assert (T = total w' ++ concat (map enc_frame fs)) as ET' by (rewrite ET, T', RL, <- !app_assoc; reflexivity).
    rewrite FR. destruct (next_frame_list fs G) as [(N1 & N2 & N3)|(f1 & gs & N1 & N2 & N3 & N4 & N5)]; rewrite N1.
    + eexists. split; [reflexivity|]. cbn [a_wb]. split; [unfold wok, w_used, w_flush; cbn; lia|]. rewrite N2 in B2. apply app_eq_nil in B2. apply ADone; [apply B2 | reflexivity|]. rewrite ET', N3, app_nil_r. unfold total, w_flush. cbn [a_wb w_sent w_buf]. rewrite app_nil_r. reflexivity.
    + apply IH; [|exact W'|].
      * apply (f_equal (@length Z)) in B1. rewrite app_length in B1. destruct L; [congruence|]. cbn [length] in B1. lia.
      * apply (ANext _ _ _ f1 gs N2); [rewrite B2; exact N3 | reflexivity | exact N5 | reflexivity|]. cbn [a_wb]. rewrite ET', N4. reflexivity.
  - assert (L = b ++ skipn (length b) L /\ R = skipn (length b) L ++ concat fs) as [B1 B2].
    { assert (firstn (length b) L = b) as F1.
      { apply (f_equal (firstn (length b))) in EQ. rewrite firstn_le_app, firstn_all in EQ by lia. rewrite firstn_le_app in EQ by lia. symmetry. exact EQ. }
      split; [rewrite <- F1 at 1; symmetry; apply firstn_skipn|]. apply (f_equal (skipn (length b))) in EQ. rewrite skipn_le_app, skipn_all in EQ by lia. rewrite skipn_le_app in EQ by lia. exact EQ. }
    set (L' := skipn (length b) L) in *. assert (L' <> []) as NL'. { intros Q. rewrite Q, app_nil_r in B1. rewrite B1 in C. lia. }
    rewrite B1 in I, ET. destruct (around_mid fuel st b [] L' I W (or_intror eq_refl)) as (w' & W' & T' & EA). rewrite app_nil_r in EA. rewrite EA. destruct (rest_split st b L' I w') as [RO I'].
    cbn [a_left] in *. assert (0 <? a_left st - len b = true) as ->.
    { destruct I' as (_ & I' & _). cbn [a_left] in I'. destruct L'; [congruence|]. unfold len in *. cbn [length] in I'. lia. }
    eexists. split; [reflexivity|]. cbn [a_wb]. split; [exact W'|]. apply (AIn _ _ _ L' fs NL' B2 I' G); [exact FR|]. cbn [a_wb]. rewrite ET, RO, T', <- !app_assoc. reflexivity.
Qed.

Lemma agood_all fuel : agood fuel.
Proof.
  induction fuel as [|fuel IH]; intros st b R T LB W H.
  - destruct b; [|cbn [length] in LB; lia]. exists st. split; [reflexivity|]. split; [exact W | exact H].
  - destruct b as [|x b]; [exists st; split; [reflexivity|]; split; [exact W | exact H]|]. rewrite aud_eq. destruct H as [H1 _ _ | L fs NL H1 I G FR ET | f fs NF H1 A0 G FR ET].
    + discriminate.
    + assert (a_left st <=? 0 = false) as ->. { destruct I as (_ & I & _). destruct L; [congruence|]. unfold len in I. cbn [length] in I. lia. }
      cbn [bind]. apply (around_ok fuel st (x :: b) R L fs T IH LB ltac:(discriminate) W NL H1 I G FR ET).
    + rewrite A0. change (0 <=? 0) with true. cbv iota. rewrite FR. cbn [bind]. destruct (Forall_inv G) as [BF LF]. destruct (start_in f (map len fs) (a_wb st) BF LF) as [I RO].
      eapply (around_ok fuel _ (x :: b) R f fs T); [exact IH | exact LB | discriminate | exact W | exact NF | exact H1 | exact I | exact (Forall_inv_tail G) | reflexivity|]. cbn [a_wb]. rewrite RO. exact ET.
Qed.

Lemma aud_writes_ok l : forall st R T, wok cap (a_wb st) -> atodo st (concat l ++ R) T -> exists st', aud_writes E iv cap st l = Ok st' /\ wok cap (a_wb st') /\ atodo st' R T.
Proof.
  induction l as [|b l IH]; intros st R T W H; [exists st; split; [reflexivity|]; split; [exact W | exact H]|]. cbn [concat] in H. rewrite <- app_assoc in H. cbn [aud_writes].
  destruct (agood_all (length b) st b _ T ltac:(lia) W H) as (st1 & E1 & W1 & H1). rewrite E1. cbn [bind]. apply IH; assumption.
Qed.

Lemma read_enc_frame u : Forall is_byte u -> read_frame D iv (enc_frame u) = u /\ length (enc_frame u) = length u.
Proof.
  intros B. unfold enc_frame. set (n := (16 * (length u / 16))%nat). assert (n <= length u)%nat as Ln by (apply Nat.mul_div_le; lia).
  assert (length (firstn n u) = n) as L1 by (rewrite firstn_length; lia).
  rewrite update_eq. cbn [c_buf c_chain cbc_init app fst]. rewrite L1. assert (n / 16 = length u / 16)%nat as -> by (unfold n; rewrite Nat.mul_comm, Nat.div_mul by lia; reflexivity).
  destruct (blocks_facts E D ED (length u / 16) iv (firstn n u) IV ltac:(apply Forall_firstn; exact B) ltac:(fold n; lia)) as (B1 & B2 & _ & B4 & _). fold n in B1, B4.
  set (o := fst (blocks E (length u / 16) iv (firstn n u))) in *.
  assert (length (o ++ skipn n u) = length u) as LX by (rewrite app_length, skipn_length; lia).
  split; [|exact LX]. unfold read_frame. rewrite LX. fold n. cbv zeta. rewrite firstn_le_app by lia. rewrite <- B1, firstn_all. rewrite skipn_le_app, skipn_all by lia. cbn [app]. rewrite B4. rewrite B1, firstn_firstn, Nat.min_id. apply firstn_skipn.
Qed.

Theorem cbcs_audio_ok fs l : Forall frame_good fs -> concat l = concat fs ->
  exists xs, cbcs_audio E iv cap (map len fs) l = Ok (concat xs, None)
    /\ Forall2 (fun f x => read_frame D iv x = f /\ length x = length f) fs xs.
Proof.
  intros G C. exists (map enc_frame fs). split.
  - unfold cbcs_audio. assert (atodo (Aud (next_frame (map len fs)) 0 0 (cbc_init iv) (Wb [] None)) (concat l ++ []) (concat (map enc_frame fs))) as H.
    { rewrite app_nil_r, C. destruct (next_frame_list fs G) as [(N1 & N2 & N3)|(f1 & gs & N1 & N2 & N3 & N4 & N5)].
      - apply ADone; [exact N2 | reflexivity | exact N3].
      - apply (ANext _ _ _ f1 gs N2 N3); [reflexivity | exact N5 | exact N1 | cbn [a_wb total w_sent w_buf app]; exact N4]. }
    assert (wok cap (Wb [] None)) as W0 by (unfold wok, w_used; cbn [w_buf]; lia).
    destruct (aud_writes_ok l (Aud (next_frame (map len fs)) 0 0 (cbc_init iv) (Wb [] None)) [] _ W0 H) as (st' & -> & W & H'). cbn [bind]. destruct H' as [_ H2 H3 | L gs NL H1 | f gs NF H1].
    + rewrite H2. rewrite H3. unfold total. rewrite H2, app_nil_r. reflexivity.
    + symmetry in H1. apply app_eq_nil in H1. destruct H1 as [H1 _]. congruence.
    + symmetry in H1. apply app_eq_nil in H1. destruct H1 as [H1 _]. congruence.
  - clear C. induction fs as [|f fs IH]; [apply Forall2_nil|]. cbn [map]. apply Forall2_cons; [apply read_enc_frame, (Forall_inv G) | apply IH, (Forall_inv_tail G)].
Qed.
End Cipher.
