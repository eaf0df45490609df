(* What a player does with MPEG-TS packets (ISO/IEC 13818-1), and which calls the
   encoder gets.  Nothing here uses the functions of the model. *)

From Coq Require Import ZArith List Bool Lia.
From Verif Require Import Lists TsModel.
Import ListNotations.
Open Scope Z_scope.

(* A transport packet: stream, does a PES packet start here, counter, clock, and
   the rest. *)
Record tsp := Tsp {
  x_pid : Z; x_start : bool; x_cc : Z; x_pcr : option Z; x_pay : list Z
}.

(* The adaptation field: nothing, or flags, maybe a clock, and stuffing. *)
Definition parse_af (l : list Z) : option (option Z) :=
  match l with
  | [] => Some None
  | 0 :: s => if forallb (Z.eqb 255) s then Some None else None
  | 16 :: a :: b :: c :: d :: e :: x :: s =>
      if (e mod 128 =? 126) && (x =? 0) && forallb (Z.eqb 255) s
      then Some (Some (a * 2 ^ 25 + b * 2 ^ 17 + c * 2 ^ 9 + d * 2 + e / 128))
      else None
  | _ => None
  end.

(* (A packet whose adaptation field leaves no room for a payload is read as a packet
   with an empty payload.) *)
Definition parse_ts (b : list Z) : option tsp :=
  match b with
  | 71 :: b1 :: b2 :: b3 :: r =>
      let s := b1 / 64 =? 1 in
      let pid := b1 mod 64 * 256 + b2 in
      if (length b =? 188)%nat && (b1 <? 128) && (b1 mod 64 <? 32) then
        if b3 / 16 =? 1 then Some (Tsp pid s (b3 mod 16) None r)
        else if b3 / 16 =? 3 then
          match r with
          | l :: r =>
              if (0 <=? l) && (l <=? 183) then
                match parse_af (firstn (Z.to_nat l) r) with
                | Some p => Some (Tsp pid s (b3 mod 16) p (skipn (Z.to_nat l) r))
                | None => None
                end
              else None
          | [] => None
          end
        else None
      else None
  | _ => None
  end.

Fixpoint parse_all (l : list (list Z)) : option (list tsp) :=
  match l with
  | [] => Some []
  | b :: l =>
      match parse_ts b, parse_all l with
      | Some p, Some ps => Some (p :: ps)
      | _, _ => None
      end
  end.

(* The payloads from one start to the next belong together.  First: what comes
   before any start. *)
Fixpoint split (l : list tsp) : list Z * list (option Z * list Z) :=
  match l with
  | [] => ([], [])
  | p :: l =>
      let '(d, us) := split l in
      if x_start p then ([], (x_pcr p, x_pay p ++ d) :: us) else (x_pay p ++ d, us)
  end.

(* A PES packet. *)
Record pes := Pes {
  p_sid : Z; p_len : Z; p_aligned : bool; p_pts : Z; p_dts : option Z; p_data : list Z
}.

Definition parse_time (fb : Z) (l : list Z) : option Z :=
  match l with
  | [a; b; c; d; e] =>
      if (a / 16 =? fb) && (a mod 2 =? 1) && (c mod 2 =? 1) && (e mod 2 =? 1)
      then Some (a / 2 mod 8 * 2 ^ 30 + (b * 256 + c) / 2 * 2 ^ 15 + (d * 256 + e) / 2)
      else None
  | _ => None
  end.

Definition parse_pes (l : list Z) : option pes :=
  match l with
  | 0 :: 0 :: 1 :: sid :: l1 :: l2 :: f1 :: f2 :: n :: r =>
      match (if f1 =? 132 then Some true else if f1 =? 128 then Some false else None) with
      | Some al =>
          if (f2 =? 128) && (n =? 5) then
            match parse_time 2 (firstn 5 r) with
            | Some pts => Some (Pes sid (l1 * 256 + l2) al pts None (skipn 5 r))
            | None => None
            end
          else if (f2 =? 192) && (n =? 10) then
            match parse_time 3 (firstn 5 r), parse_time 1 (firstn 5 (skipn 5 r)) with
            | Some pts, Some dts =>
                Some (Pes sid (l1 * 256 + l2) al pts (Some dts) (skipn 10 r))
            | _, _ => None
            end
          else None
      | None => None
      end
  | _ => None
  end.

Fixpoint parse_units (l : list (option Z * list Z)) : option (list (option Z * pes)) :=
  match l with
  | [] => Some []
  | (c, b) :: l =>
      match parse_pes b, parse_units l with
      | Some p, Some ps => Some ((c, p) :: ps)
      | _, _ => None
      end
  end.

(* What a player gets of a stream: the counters, and the PES packets with the
   clocks.  Every packet must be well formed, and nothing may come before the first
   PES packet. *)
Definition demux (pid : Z) (out : list (list Z)) : option (list Z * list (option Z * pes)) :=
  match parse_all out with
  | Some ps =>
      let l := filter (fun p => x_pid p =? pid) ps in
      match split l with
      | ([], us) =>
          match parse_units us with
          | Some r => Some (map x_cc l, r)
          | None => None
          end
      | _ => None
      end
  | None => None
  end.

(* ------------------------------------------------------------------ *)
(* What was pushed into a stream                                        *)

(* The bytes, where frames and sub frames begin with their pts, and the frames with
   where they begin. *)
Record hist := Hist { h_data : list Z; h_marks : list (Z * Z); h_frames : list (Z * frame) }.

Definition hist_step (i : nat) (h : hist) (o : op) : hist :=
  let n := Z.of_nat (length (h_data h)) in
  match o with
  | OStart j f =>
      if (j =? i)%nat
      then Hist (h_data h) (h_marks h ++ [(n, f_pts f)]) (h_frames h ++ [(n, f)]) else h
  | OSub j f =>
      if (j =? i)%nat then Hist (h_data h) (h_marks h ++ [(n, f_pts f)]) (h_frames h) else h
  | OWrite j b => if (j =? i)%nat then Hist (h_data h ++ b) (h_marks h) (h_frames h) else h
  | OFlush _ _ => h
  end.

Definition pushed (i : nat) (ops : list op) : hist :=
  fold_left (hist_step i) ops (Hist [] [] []).

(* The pts of the first frame or sub frame that begins at a place or after it. *)
Definition first_pts (marks : list (Z * Z)) (off : Z) : option Z :=
  match find (fun m => off <=? fst m) marks with Some m => Some (snd m) | None => None end.

(* ------------------------------------------------------------------ *)
(* The calls the encoder gets                                           *)

(* A stream had no frame yet, is inside a frame (must data come next?  how much of
   it came?), between frames, or had its last frame. *)
Inductive phase := New | Inside (pending : bool) (n : Z) | Between | Done.

(* A frame has a header (AUD, ADTS) unless frames are aligned, but for metadata, of
   which there is then one frame only; the PES packets of audio that is not aligned
   fit in 16 bits; data is never empty, and every frame and sub frame has some. *)
Definition next_phase (c : conf) (t : strm) (p : phase) (o : op) : option phase :=
  match o, p with
  | OStart _ f, New | OStart _ f, Between =>
      if (c_align c || is_other t || (1 <=? f_header f)) && (0 <=? f_header f) then Some (Inside true 0) else None
  | OSub _ _, Inside false n => Some (Inside true n)
  | OWrite _ b, Inside _ n =>
      let n := n + zlen b in
      if (0 <? zlen b) && (c_align c || is_video t || (n <=? 65343))
      then Some (Inside false n) else None
  | OFlush _ last, Inside false _ =>
      if last || c_align c || negb (is_other t)
      then Some (if last then Done else Between) else None
  | _, _ => None
  end.

Definition op_strm (o : op) : nat :=
  match o with OStart i _ => i | OSub i _ => i | OWrite i _ => i | OFlush i _ => i end.

Definition is_in (p : phase) : bool := match p with Inside _ _ => true | _ => false end.

(* Without interleaving one frame is pushed after the other. *)
Definition alone (c : conf) (ps : list phase) (o : op) : bool :=
  match o with OStart _ _ => c_inter c || negb (existsb is_in ps) | _ => true end.

Definition track (c : conf) (ps : list phase) (o : op) : option (list phase) :=
  let i := op_strm o in
  match nth_error (c_strms c) i, nth_error ps i with
  | Some t, Some p =>
      if alone c ps o then
        match next_phase c t p o with Some p => Some (set_nth ps i p) | None => None end
      else None
  | _, _ => None
  end.

Fixpoint tracks (c : conf) (ps : list phase) (ops : list op) : option (list phase) :=
  match ops with
  | [] => Some ps
  | o :: ops => match track c ps o with Some ps => tracks c ps ops | None => None end
  end.

Definition phases (c : conf) (ops : list op) : option (list phase) :=
  tracks c (map (fun _ => New) (c_strms c)) ops.

(* Every stream that began had its last frame. *)
Definition finished (c : conf) (ops : list op) : Prop :=
  exists ps, phases c ops = Some ps /\ Forall (fun p => p = New \/ p = Done) ps.

(* The streams: different pids of 13 bits, sids of 8 bits. *)
Definition good_conf (c : conf) : Prop :=
  NoDup (map t_pid (c_strms c)) /\
  Forall (fun t => 0 <= t_pid t < 8192 /\ 0 <= t_sid t < 256) (c_strms c).

(* The packets, when all are complete. *)
Fixpoint contents (l : list slot) : option (list (list Z)) :=
  match l with
  | [] => Some []
  | (_, Some b) :: l => match contents l with Some r => Some (b :: r) | None => None end
  | (_, None) :: _ => None
  end.

(* ------------------------------------------------------------------ *)
(* What a player should get                                             *)

Definition clock33 (x : Z) : Z := x mod 2 ^ 33.

(* The length that a PES packet with n bytes of data should have; 0 is "not
   given". *)
Definition pes_len (c : conf) (t : strm) (n : Z) : Z :=
  let v := (if is_video t then 13 else 8) + n in
  if is_video t && negb (c_align c) then 0 else if 65535 <? v then 0 else v.

(* One PES packet, that begins at a place in the stream, against the frame of the
   same number and where it begins. *)
Definition good_pes (c : conf) (t : strm) (marks : list (Z * Z)) (off : Z)
  (r : option Z * pes) (s : Z * frame) : Prop :=
  let '(pcr, p) := r in
  let '(pos, f) := s in
  p_sid p = t_sid t /\
  p_len p = pes_len c t (Z.of_nat (length (p_data p))) /\
  (exists x, first_pts marks off = Some x /\ p_pts p = clock33 (x + 9090)) /\
  p_dts p = (if is_video t then Some (clock33 (f_dts f + 9090)) else None) /\
  pcr = (if t_pcr t then Some (clock33 (f_dts f + 4590)) else None) /\
  off <= pos < off + 184 /\
  (p_aligned p = true -> off = pos) /\
  (c_align c = true -> p_aligned p = true).

Fixpoint good_all (c : conf) (t : strm) (marks : list (Z * Z)) (off : Z)
  (l : list (option Z * pes)) (ss : list (Z * frame)) : Prop :=
  match l, ss with
  | [], [] => True
  | r :: l, s :: ss =>
      good_pes c t marks off r s /\
      good_all c t marks (off + Z.of_nat (length (p_data (snd r)))) l ss
  | _, _ => False
  end.

(* The counters go up by one from the first. *)
Fixpoint counts (x : Z) (l : list Z) : Prop :=
  match l with [] => True | a :: l => a = x mod 16 /\ counts (x + 1) l end.
