(* What a player makes of a media playlist, after RFC 8216 and its successor
   (draft-pantos-hls-rfc8216bis): a playlist is a text of lines; tags apply
   to the next segment, or to all the segments that follow, and a line that
   is not a tag is the uri of a segment.  And what the player should get from
   the timeline of a channel. *)
From Coq Require Import String Ascii ZArith List Bool.
From Verif Require Import Bytes M3u8Model.
Import ListNotations.
Open Scope Z_scope.

(* ----- reading text *)

Fixpoint lines (l : list Z) : list (list Z) :=
  match l with
  | [] => []
  | c :: r => if c =? 10 then [] :: lines r
              else match lines r with [] => [[c]] | x :: xs => (c :: x) :: xs end
  end.

(* [strip p l]: what follows the prefix [p] of [l] *)
Fixpoint strip (p l : list Z) : option (list Z) :=
  match p, l with
  | [], _ => Some l
  | a :: p', b :: l' => if a =? b then strip p' l' else None
  | _, [] => None
  end.

(* the text before and after the first [c] *)
Fixpoint cut (c : Z) (l : list Z) : option (list Z * list Z) :=
  match l with
  | [] => None
  | x :: r => if x =? c then Some ([], r)
              else match cut c r with Some (a, b) => Some (x :: a, b) | None => None end
  end.

(* a decimal number *)
Definition digit (c : Z) : bool := (48 <=? c) && (c <=? 57).
Definition num (l : list Z) : option Z :=
  match l with
  | [] => None
  | _ => if forallb digit l then Some (fold_left (fun a c => 10 * a + (c - 48)) l 0) else None
  end.

(* a number of seconds with three decimals, as milliseconds *)
Definition millis (l : list Z) : option Z :=
  match cut 46 l with
  | Some (a, b) =>
      match num a, num b with
      | Some i, Some d => if Nat.eqb (length b) 3 then Some (1000 * i + d) else None
      | _, _ => None
      end
  | None => None
  end.

(* an attribute list: items separated by the commas that are not in quotes *)
Fixpoint items (q : bool) (l : list Z) : list (list Z) :=
  match l with
  | [] => [[]]
  | c :: r =>
      if (c =? 44) && negb q then [] :: items q r
      else match items (if c =? 34 then negb q else q) r with
           | x :: xs => (c :: x) :: xs
           | [] => [[c]]
           end
  end.
Fixpoint find_attr (name : list Z) (l : list (list Z)) : option (list Z) :=
  match l with
  | [] => None
  | x :: r => match strip name x with Some v => Some v | None => find_attr name r end
  end.
Definition attr (name : string) (l : list Z) : option (list Z) :=
  find_attr (str name ++ [61]) (items false l).
Definition unquote (v : list Z) : option (list Z) :=
  match v with
  | c :: r => if c =? 34 then match cut 34 r with Some (x, []) => Some x | _ => None end else None
  | [] => None
  end.
Definition attr_text (name : string) (l : list Z) : option (list Z) :=
  match attr name l with Some v => unquote v | None => None end.
(* an attribute that may be absent *)
Definition optional {A} (read : list Z -> option A) (v : option (list Z)) : option (option A) :=
  match v with
  | None => Some None
  | Some x => match read x with Some a => Some (Some a) | None => None end
  end.
(* an attribute that says YES, or is absent *)
Definition yes (v : option (list Z)) : bool :=
  match v with Some x => if list_eq_dec Z.eq_dec x (str "YES") then true else false | None => false end.

(* ----- what a player knows *)

Record part := { pt_uri : list Z; pt_ms : Z; pt_independent : bool; pt_gap : bool }.

Record seg := {
  s_uri : list Z;
  s_ms : Z;                            (* duration *)
  s_discontinuity : bool;              (* a discontinuity precedes it *)
  s_gap : bool;                        (* it must not be loaded *)
  s_date : option (list Z * Z);        (* date and time: seconds as text, milliseconds *)
  s_map : option (list Z);             (* the uri of its initialization segment *)
  s_rate : option Z;                   (* its bitrate, in kbit/s *)
  s_parts : list part
}.

(* METHOD, URI, IV, KEYFORMAT, KEYFORMATVERSIONS *)
Record enc := {
  n_method : list Z; n_uri : list Z; n_iv : option (list Z);
  n_format : option (list Z); n_versions : option (list Z)
}.

Record info := {
  i_m3u : bool;
  i_target : option Z;                 (* seconds *)
  i_version : option Z;
  i_sequence : option Z;
  i_discontinuities : option Z;
  i_block_reload : bool;
  i_skip_until : option Z;             (* milliseconds *)
  i_hold_back : option Z;              (* milliseconds *)
  i_part_target : option Z;            (* milliseconds *)
  i_skipped : Z;
  i_enc : option enc;
  i_ended : bool
}.

(* what applies to the next segment *)
Record next := {
  x_ms : option Z; x_discontinuity : bool; x_gap : bool;
  x_date : option (list Z * Z); x_parts : list part
}.

Record player := {
  y_info : info;
  y_next : next;
  y_map : option (list Z);
  y_rate : option Z;
  y_segs : list seg;
  y_hint : option (list Z);            (* the uri of the part to preload *)
  y_reports : list (list Z * option Z * option Z)  (* uri, LAST-MSN, LAST-PART *)
}.

Definition next0 : next :=
  {| x_ms := None; x_discontinuity := false; x_gap := false; x_date := None; x_parts := [] |}.
Definition info0 : info :=
  {| i_m3u := false; i_target := None; i_version := None; i_sequence := None;
     i_discontinuities := None; i_block_reload := false; i_skip_until := None;
     i_hold_back := None; i_part_target := None; i_skipped := 0; i_enc := None;
     i_ended := false |}.

(* a player before the first line; [m] is the initialization segment of the
   last of the segments that it has and that the playlist may skip *)
Definition player0 (m : option (list Z)) : player :=
  {| y_info := info0; y_next := next0; y_map := m; y_rate := None; y_segs := [];
     y_hint := None; y_reports := [] |}.

Definition set_info (i : info) (s : player) : player :=
  {| y_info := i; y_next := y_next s; y_map := y_map s; y_rate := y_rate s;
     y_segs := y_segs s; y_hint := y_hint s; y_reports := y_reports s |}.
Definition set_next (x : next) (s : player) : player :=
  {| y_info := y_info s; y_next := x; y_map := y_map s; y_rate := y_rate s;
     y_segs := y_segs s; y_hint := y_hint s; y_reports := y_reports s |}.
Definition set_map (m : list Z) (s : player) : player :=
  {| y_info := y_info s; y_next := y_next s; y_map := Some m; y_rate := y_rate s;
     y_segs := y_segs s; y_hint := y_hint s; y_reports := y_reports s |}.
Definition set_rate (r : Z) (s : player) : player :=
  {| y_info := y_info s; y_next := y_next s; y_map := y_map s; y_rate := Some r;
     y_segs := y_segs s; y_hint := y_hint s; y_reports := y_reports s |}.
Definition set_hint (u : list Z) (s : player) : player :=
  {| y_info := y_info s; y_next := y_next s; y_map := y_map s; y_rate := y_rate s;
     y_segs := y_segs s; y_hint := Some u; y_reports := y_reports s |}.
Definition add_report (r : list Z * option Z * option Z) (s : player) : player :=
  {| y_info := y_info s; y_next := y_next s; y_map := y_map s; y_rate := y_rate s;
     y_segs := y_segs s; y_hint := y_hint s; y_reports := y_reports s ++ [r] |}.
Definition add_seg (g : seg) (s : player) : player :=
  {| y_info := y_info s; y_next := next0; y_map := y_map s; y_rate := y_rate s;
     y_segs := y_segs s ++ [g]; y_hint := y_hint s; y_reports := y_reports s |}.

(* ----- the tags *)

Definition tag := (string * (list Z -> player -> option player))%type.

(* a tag without a value *)
Definition flag (f : player -> player) (v : list Z) (s : player) : option player :=
  match v with [] => Some (f s) | _ => None end.

Definition on_m3u (s : player) : player :=
  let i := y_info s in
  set_info {| i_m3u := true; i_target := i_target i; i_version := i_version i;
              i_sequence := i_sequence i; i_discontinuities := i_discontinuities i;
              i_block_reload := i_block_reload i; i_skip_until := i_skip_until i;
              i_hold_back := i_hold_back i; i_part_target := i_part_target i;
              i_skipped := i_skipped i; i_enc := i_enc i; i_ended := i_ended i |} s.
Definition on_target (v : list Z) (s : player) : option player :=
  match num v with
  | Some n =>
      let i := y_info s in
      Some (set_info {| i_m3u := i_m3u i; i_target := Some n; i_version := i_version i;
              i_sequence := i_sequence i; i_discontinuities := i_discontinuities i;
              i_block_reload := i_block_reload i; i_skip_until := i_skip_until i;
              i_hold_back := i_hold_back i; i_part_target := i_part_target i;
              i_skipped := i_skipped i; i_enc := i_enc i; i_ended := i_ended i |} s)
  | None => None
  end.
Definition on_version (v : list Z) (s : player) : option player :=
  match num v with
  | Some n =>
      let i := y_info s in
      Some (set_info {| i_m3u := i_m3u i; i_target := i_target i; i_version := Some n;
              i_sequence := i_sequence i; i_discontinuities := i_discontinuities i;
              i_block_reload := i_block_reload i; i_skip_until := i_skip_until i;
              i_hold_back := i_hold_back i; i_part_target := i_part_target i;
              i_skipped := i_skipped i; i_enc := i_enc i; i_ended := i_ended i |} s)
  | None => None
  end.
Definition on_sequence (v : list Z) (s : player) : option player :=
  match num v with
  | Some n =>
      let i := y_info s in
      Some (set_info {| i_m3u := i_m3u i; i_target := i_target i; i_version := i_version i;
              i_sequence := Some n; i_discontinuities := i_discontinuities i;
              i_block_reload := i_block_reload i; i_skip_until := i_skip_until i;
              i_hold_back := i_hold_back i; i_part_target := i_part_target i;
              i_skipped := i_skipped i; i_enc := i_enc i; i_ended := i_ended i |} s)
  | None => None
  end.
Definition on_disc_sequence (v : list Z) (s : player) : option player :=
  match num v with
  | Some n =>
      let i := y_info s in
      Some (set_info {| i_m3u := i_m3u i; i_target := i_target i; i_version := i_version i;
              i_sequence := i_sequence i; i_discontinuities := Some n;
              i_block_reload := i_block_reload i; i_skip_until := i_skip_until i;
              i_hold_back := i_hold_back i; i_part_target := i_part_target i;
              i_skipped := i_skipped i; i_enc := i_enc i; i_ended := i_ended i |} s)
  | None => None
  end.
Definition on_control (v : list Z) (s : player) : option player :=
  match optional millis (attr "CAN-SKIP-UNTIL" v), optional millis (attr "PART-HOLD-BACK" v) with
  | Some sk, Some hb =>
      let i := y_info s in
      Some (set_info {| i_m3u := i_m3u i; i_target := i_target i; i_version := i_version i;
              i_sequence := i_sequence i; i_discontinuities := i_discontinuities i;
              i_block_reload := yes (attr "CAN-BLOCK-RELOAD" v); i_skip_until := sk;
              i_hold_back := hb; i_part_target := i_part_target i;
              i_skipped := i_skipped i; i_enc := i_enc i; i_ended := i_ended i |} s)
  | _, _ => None
  end.
Definition on_part_inf (v : list Z) (s : player) : option player :=
  match attr "PART-TARGET" v with
  | Some t =>
      match millis t with
      | Some n =>
          let i := y_info s in
          Some (set_info {| i_m3u := i_m3u i; i_target := i_target i; i_version := i_version i;
              i_sequence := i_sequence i; i_discontinuities := i_discontinuities i;
              i_block_reload := i_block_reload i; i_skip_until := i_skip_until i;
              i_hold_back := i_hold_back i; i_part_target := Some n;
              i_skipped := i_skipped i; i_enc := i_enc i; i_ended := i_ended i |} s)
      | None => None
      end
  | None => None
  end.
Definition on_skip (v : list Z) (s : player) : option player :=
  match attr "SKIPPED-SEGMENTS" v with
  | Some t =>
      match num t with
      | Some n =>
          let i := y_info s in
          Some (set_info {| i_m3u := i_m3u i; i_target := i_target i; i_version := i_version i;
              i_sequence := i_sequence i; i_discontinuities := i_discontinuities i;
              i_block_reload := i_block_reload i; i_skip_until := i_skip_until i;
              i_hold_back := i_hold_back i; i_part_target := i_part_target i;
              i_skipped := n; i_enc := i_enc i; i_ended := i_ended i |} s)
      | None => None
      end
  | None => None
  end.
Definition on_key (v : list Z) (s : player) : option player :=
  match attr "METHOD" v, attr_text "URI" v, optional unquote (attr "KEYFORMAT" v),
        optional unquote (attr "KEYFORMATVERSIONS" v) with
  | Some m, Some u, Some kf, Some kv =>
      let i := y_info s in
      Some (set_info {| i_m3u := i_m3u i; i_target := i_target i; i_version := i_version i;
              i_sequence := i_sequence i; i_discontinuities := i_discontinuities i;
              i_block_reload := i_block_reload i; i_skip_until := i_skip_until i;
              i_hold_back := i_hold_back i; i_part_target := i_part_target i;
              i_skipped := i_skipped i;
              i_enc := Some {| n_method := m; n_uri := u; n_iv := attr "IV" v;
                               n_format := kf; n_versions := kv |};
              i_ended := i_ended i |} s)
  | _, _, _, _ => None
  end.
Definition on_end (s : player) : player :=
  let i := y_info s in
  set_info {| i_m3u := i_m3u i; i_target := i_target i; i_version := i_version i;
              i_sequence := i_sequence i; i_discontinuities := i_discontinuities i;
              i_block_reload := i_block_reload i; i_skip_until := i_skip_until i;
              i_hold_back := i_hold_back i; i_part_target := i_part_target i;
              i_skipped := i_skipped i; i_enc := i_enc i; i_ended := true |} s.

Definition on_discontinuity (s : player) : player :=
  let x := y_next s in
  set_next {| x_ms := x_ms x; x_discontinuity := true; x_gap := x_gap x;
              x_date := x_date x; x_parts := x_parts x |} s.
Definition on_gap (s : player) : player :=
  let x := y_next s in
  set_next {| x_ms := x_ms x; x_discontinuity := x_discontinuity x; x_gap := true;
              x_date := x_date x; x_parts := x_parts x |} s.
(* duration, comma, title *)
Definition on_extinf (v : list Z) (s : player) : option player :=
  match cut 44 v with
  | Some (d, _) =>
      match millis d with
      | Some n =>
          let x := y_next s in
          Some (set_next {| x_ms := Some n; x_discontinuity := x_discontinuity x; x_gap := x_gap x;
                            x_date := x_date x; x_parts := x_parts x |} s)
      | None => None
      end
  | None => None
  end.
(* date and time, with milliseconds, in UTC *)
Definition on_date (v : list Z) (s : player) : option player :=
  match cut 46 v with
  | Some (d, r) =>
      match num (firstn 3 r) with
      | Some n =>
          if list_eq_dec Z.eq_dec (skipn 3 r) (str "+00:00")
          then let x := y_next s in
               Some (set_next {| x_ms := x_ms x; x_discontinuity := x_discontinuity x;
                       x_gap := x_gap x; x_date := Some (d, n); x_parts := x_parts x |} s)
          else None
      | None => None
      end
  | None => None
  end.
Definition on_part (v : list Z) (s : player) : option player :=
  match attr "DURATION" v, attr_text "URI" v with
  | Some d, Some u =>
      match millis d with
      | Some n =>
          let x := y_next s in
          Some (set_next {| x_ms := x_ms x; x_discontinuity := x_discontinuity x;
                  x_gap := x_gap x; x_date := x_date x;
                  x_parts := x_parts x ++ [{| pt_uri := u; pt_ms := n;
                                              pt_independent := yes (attr "INDEPENDENT" v);
                                              pt_gap := yes (attr "GAP" v) |}] |} s)
      | None => None
      end
  | _, _ => None
  end.
Definition on_hint (v : list Z) (s : player) : option player :=
  match attr "TYPE" v, attr_text "URI" v with
  | Some t, Some u => if list_eq_dec Z.eq_dec t (str "PART") then Some (set_hint u s) else None
  | _, _ => None
  end.
Definition on_map (v : list Z) (s : player) : option player :=
  match attr_text "URI" v with Some u => Some (set_map u s) | None => None end.
Definition on_rate (v : list Z) (s : player) : option player :=
  match num v with Some n => Some (set_rate n s) | None => None end.
Definition on_report (v : list Z) (s : player) : option player :=
  match attr_text "URI" v, optional num (attr "LAST-MSN" v), optional num (attr "LAST-PART" v) with
  | Some u, Some m, Some p => Some (add_report (u, m, p) s)
  | _, _, _ => None
  end.

Definition tags : list tag :=
  [("#EXTM3U"%string, flag on_m3u);
   ("#EXT-X-TARGETDURATION:"%string, on_target);
   ("#EXT-X-VERSION:"%string, on_version);
   ("#EXT-X-MEDIA-SEQUENCE:"%string, on_sequence);
   ("#EXT-X-DISCONTINUITY-SEQUENCE:"%string, on_disc_sequence);
   ("#EXT-X-SERVER-CONTROL:"%string, on_control);
   ("#EXT-X-PART-INF:"%string, on_part_inf);
   ("#EXT-X-SKIP:"%string, on_skip);
   ("#EXT-X-KEY:"%string, on_key);
   ("#EXT-X-ENDLIST"%string, flag on_end);
   ("#EXT-X-DISCONTINUITY"%string, flag on_discontinuity);
   ("#EXT-X-GAP"%string, flag on_gap);
   ("#EXTINF:"%string, on_extinf);
   ("#EXT-X-PROGRAM-DATE-TIME:"%string, on_date);
   ("#EXT-X-PART:"%string, on_part);
   ("#EXT-X-PRELOAD-HINT:"%string, on_hint);
   ("#EXT-X-MAP:"%string, on_map);
   ("#EXT-X-BITRATE:"%string, on_rate);
   ("#EXT-X-RENDITION-REPORT:"%string, on_report)].

Fixpoint dispatch (ts : list tag) (l : list Z) (s : player) : option player :=
  match ts with
  | [] => Some s                           (* other tags and comments are ignored *)
  | (name, f) :: r => match strip (str name) l with Some v => f v s | None => dispatch r l s end
  end.

(* the uri of a segment, which must have a duration *)
Definition on_uri (u : list Z) (s : player) : option player :=
  let x := y_next s in
  match x_ms x with
  | Some d =>
      Some (add_seg {| s_uri := u; s_ms := d; s_discontinuity := x_discontinuity x;
                       s_gap := x_gap x; s_date := x_date x; s_map := y_map s;
                       s_rate := y_rate s; s_parts := x_parts x |} s)
  | None => None
  end.

Definition on_line (s : player) (l : list Z) : option player :=
  match l with
  | [] => Some s
  | c :: _ => if c =? 35 then dispatch tags l s else on_uri l s
  end.

Fixpoint read (s : player) (ls : list (list Z)) : option player :=
  match ls with
  | [] => Some s
  | l :: r => match on_line s l with Some s' => read s' r | None => None end
  end.

(* what a player makes of a playlist; [None]: it is malformed *)
Definition play (m : option (list Z)) (text : list Z) : option player :=
  read (player0 m) (lines text).

(* ----- what it should make of it *)

(* the segments of a period that are finished: index, start and end *)
Definition durations (p : period) : list Z :=
  flat_map (fun e => repeat (snd e) (Z.to_nat (fst e))) (filter (fun e => 0 <? snd e) (p_elts p)).
Fixpoint place (i t : Z) (ds : list Z) : list (Z * Z * Z) :=
  match ds with [] => [] | d :: r => (i, t, t + d) :: place (i + 1) (t + d) r end.
Definition segments (p : period) : list (Z * Z * Z) := place (p_index p) (p_time p) (durations p).

(* the bitrate of a track at a segment, as the server sent it: 0 is a gap, 1
   is unknown; gaps and bitrates of subtitles do not count *)
Definition rate_at (i : Z) (t : track) : Z :=
  if t_type t =? 2 then 1
  else fold_left (fun r e => if fst e <=? i then snd e else r) (t_sinfo t) 1.

(* the bitrate of all the tracks together, in bit/s; [None] is unknown *)
Fixpoint total_rate (i d : Z) (ts : list track) (es : list est) : option Z :=
  match ts, es with
  | t :: ts', e :: es' =>
      if rate_at i t =? 1 then None
      else match total_rate i d ts' es' with
           | Some v => Some (v + if rate_at i t =? 0 then 0 else estimate e (rate_at i t) (Z.max 1 d))
           | None => None
           end
  | _, _ => Some 0
  end.
Definition gap_at (i : Z) (c : channel) : bool :=
  forallb (fun t => rate_at i t =? 0) (c_tracks c).

(* the media info in use at a segment: of each track the last that starts no
   later, and of these the last; else the first to come *)
Definition latest (i : Z) (l : list Z) : Z :=
  fold_left (fun a b => if b <=? i then b else a) l (hd 0 l).
Definition info_at (i : Z) (c : channel) : Z :=
  let l := map (fun t => latest i (t_minfo t)) (c_tracks c) in
  match filter (fun x => x <=? i) l with
  | [] => fold_right Z.min INVALID_INDEX l
  | past => fold_right Z.max 0 past
  end.
(* the media infos in use, by track *)
Definition infos_at (i : Z) (c : channel) : list (option Z) :=
  map (fun t => if latest i (t_minfo t) <=? i then Some (latest i (t_minfo t)) else None) (c_tracks c).

(* uris *)
Definition seg_uri (f : conf) (c : channel) (i : Z) : list Z :=
  str "seg-" ++ dec (i + 1) ++ selector c ++ f_seg_ext f.
Definition part_uri (f : conf) (c : channel) (i k : Z) : list Z :=
  str "part-" ++ dec (i + 1) ++ str "-" ++ dec k ++ selector c ++ f_seg_ext f.
Definition init_uri (f : conf) (c : channel) (i : Z) : option (list Z) :=
  match f_init_ext f with
  | Some x => Some (str "init-" ++ dec (info_at i c + 1) ++ selector c ++ x)
  | None => None
  end.

(* milliseconds of a time *)
Definition ms_of (c : channel) (t : Z) : Z := t / (c_timescale c / 1000).

(* the parts of segment [i], which starts at [t]: only when the playlist is of
   one track *)
Definition parts_at (i : Z) (c : channel) : list Z :=
  match c_tracks c with
  | [t] => match find (fun ps => fst ps =? i) (t_parts t) with Some ps => snd ps | None => [] end
  | _ => []
  end.
Fixpoint parts_from (f : conf) (c : channel) (i k t : Z) (l : list Z) : list part :=
  match l with
  | [] => []
  | d :: r =>
      if d =? PRELOAD_HINT then []
      else let t' := t + d mod 2 ^ 30 in
           {| pt_uri := part_uri f c i k; pt_ms := ms_of c t' - ms_of c t;
              pt_independent := 2 ^ 31 <=? d;
              pt_gap := negb (2 ^ 31 <=? d) && (2 ^ 30 <=? d) |} :: parts_from f c i (k + 1) t' r
  end.
Definition parts_of (f : conf) (c : channel) (i t : Z) : list part :=
  parts_from f c i 1 t (parts_at i c).

(* the part that comes next, when the last of the parts of a segment says so *)
Definition hint_in (f : conf) (c : channel) (i : Z) : option (list Z) :=
  match rev (parts_at i c) with
  | d :: r => if d =? PRELOAD_HINT then Some (part_uri f c i (zlen r + 1)) else None
  | [] => None
  end.
Definition hint_after (f : conf) (c : channel) (h : option (list Z)) (l : list Z) : option (list Z) :=
  fold_left (fun h i => match hint_in f c i with Some u => Some u | None => h end) l h.

(* the rate that the player knows after a segment: a rate of less than 2
   kbit/s is not announced *)
Definition known (before : option Z) (total : option Z) : option Z :=
  match total with
  | Some b => if 2000 <=? b then Some (b / 1000) else before
  | None => before
  end.

Fixpoint run_of (f : conf) (c : channel) (es : list est) (m : option (list Z)) (disc : bool)
    (date : option (list Z * Z)) (rate : option Z) (l : list (Z * Z * Z)) : list seg :=
  match l with
  | [] => []
  | (i, t0, t1) :: r =>
      let d := ms_of c t1 - ms_of c t0 in
      let rate' := known rate (total_rate i d (c_tracks c) es) in
      {| s_uri := seg_uri f c i; s_ms := d; s_discontinuity := disc; s_gap := gap_at i c;
         s_date := date; s_map := m; s_rate := rate'; s_parts := parts_of f c i t0 |}
      :: run_of f c es m false None rate' r
  end.
Fixpoint rate_after (c : channel) (es : list est) (rate : option Z) (l : list (Z * Z * Z)) : option Z :=
  match l with
  | [] => rate
  | (i, t0, t1) :: r =>
      rate_after c es (known rate (total_rate i (ms_of c t1 - ms_of c t0) (c_tracks c) es)) r
  end.

Definition date_of (f : conf) (c : channel) (p : period) : option (list Z * Z) :=
  if f_pdt f then Some (f_date f (p_time p / c_timescale c), ms_of c (p_time p) mod 1000) else None.

(* a playlist with skipped segments starts with a discontinuity when its
   first segment is the first of its period *)
Definition starts_period (c : channel) (p : period) : bool :=
  (0 <? h_skipped_segments (c_header c)) && (p_index p =? h_first_initial_index (c_header c)).

Fixpoint segs_of (f : conf) (c : channel) (first : bool) (rate : option Z) (ps : list period)
  : list seg :=
  match ps with
  | [] => []
  | p :: r =>
      let es := f_est f (infos_at (p_index p) c) in
      run_of f c es (init_uri f c (p_index p)) (negb first || starts_period c p)
        (date_of f c p) rate (segments p)
      ++ segs_of f c false (rate_after c es rate (segments p)) r
  end.
Definition expected (f : conf) (c : channel) : list seg := segs_of f c true None (c_periods c).

(* the segment that is not finished: the last element of the last period has
   duration 0; its index and start *)
Definition pending_of (ps : list period) : option (Z * Z) :=
  match ps with
  | [] => None
  | _ =>
      let p := last ps {| p_time := 0; p_index := 0; p_elts := [] |} in
      if existsb (fun e => snd e =? 0) (p_elts p)
      then Some (p_index p + zlen (durations p), p_time p + fold_right Z.add 0 (durations p))
      else None
  end.
Definition pending (c : channel) : option (Z * Z) := pending_of (c_periods c).

(* the indexes of the segments, with the one that is not finished *)
Definition listed (ps : list period) : list Z :=
  flat_map (fun p => map (fun x => fst (fst x)) (segments p)) ps
  ++ match pending_of ps with Some (i, _) => [i] | None => [] end.

(* ----- the periods that the reader of the answer of the segmenter lets
   through (ngx_pckg_ksmp_read_period, ngx_pckg_ksmp.c:250-364): every element
   has segments with a duration, but the last of the last period may be one
   segment without; the indexes do not wrap *)
Definition elts_ok (lst : bool) (l : list (Z * Z)) : Prop :=
  exists done, Forall (fun e => 0 < fst e /\ 0 < snd e < 2 ^ 32) done
  /\ (l = done /\ done <> [] \/ lst = true /\ l = done ++ [(1, 0)]).
Fixpoint periods_ok (from : Z) (ps : list period) : Prop :=
  match ps with
  | [] => True
  | p :: r =>
      from <= p_index p /\ 0 <= p_time p
      /\ elts_ok (match r with [] => true | _ => false end) (p_elts p)
      /\ p_index p + p_count p <= INVALID_INDEX
      /\ periods_ok (p_index p + p_count p) r
  end.

(* [no c l]: the character does not occur *)
Definition no (c : Z) (l : list Z) : Prop := ~ In c l.

(* text without newlines and quotes *)
Definition tame (l : list Z) : Prop := no 10 l /\ no 34 l.

Fixpoint ascending (l : list Z) : Prop :=
  match l with
  | a :: ((b :: _) as r) => a <= b /\ ascending r
  | _ => True
  end.

(* segment infos are in order *)
Definition sinfo_ok (t : track) : Prop := ascending (map fst (t_sinfo t)).

(* every track has media infos, in order *)
Definition minfo_ok (t : track) : Prop :=
  t_minfo t <> [] /\ ascending (t_minfo t) /\ Forall (fun x => 0 <= x < INVALID_INDEX) (t_minfo t).

Fixpoint strict (l : list Z) : Prop :=
  match l with
  | a :: ((b :: _) as r) => a < b /\ strict r
  | _ => True
  end.

(* what the estimators must keep to: the total fits 32 bits, and is more than
   1 (which stands for unknown) unless there is a gap *)
Definition total_ok (c : channel) (es : list est) (i d : Z) : Prop :=
  match total_rate i d (c_tracks c) es with
  | Some v => gap_at i c = false -> 2 <= v < 2 ^ 32
  | None => True
  end.

(* the timescale is at least that of milliseconds; the configured file
   extensions and the identifiers are text *)
Definition chan_ok (f : conf) (c : channel) : Prop :=
  1000 <= c_timescale c /\ Forall is_byte (c_variant c) /\ tame (f_seg_ext f)
  /\ (forall x, f_init_ext f = Some x -> tame x).

(* a preload hint is the last of its list: ngx_pckg_ksmp.c:627-730 *)
Definition plist_ok (l : list Z) : Prop :=
  Forall (fun d => 0 <= d < 2 ^ 32) l /\ Forall (fun d => d <> PRELOAD_HINT) (removelast l).

(* the segments that have parts are in order *)
Definition tparts_ok (t : track) : Prop :=
  strict (map fst (t_parts t)) /\ Forall (fun ps => 0 <= fst ps < INVALID_INDEX /\ plist_ok (snd ps)) (t_parts t).

Definition tracks_ok (c : channel) : Prop :=
  c_tracks c <> [] /\ Forall (fun t => sinfo_ok t /\ minfo_ok t /\ tparts_ok t) (c_tracks c).

(* the estimates are in range at every segment *)
Definition runs_ok (c : channel) (es : list est) (i t : Z) (ds : list Z) : Prop :=
  Forall (fun x => total_ok c es (fst (fst x)) (ms_of c (snd x) - ms_of c (snd (fst x)))) (place i t ds).

(* the text of a date is one line without a dot *)
Definition dates_ok (f : conf) : Prop := forall t, no 10 (f_date f t) /\ no 46 (f_date f t).

Definition rates_ok (f : conf) (c : channel) (ps : list period) : Prop :=
  Forall (fun p => runs_ok c (f_est f (infos_at (p_index p) c)) (p_index p) (p_time p) (durations p)) ps.

Definition report_ok (r : report) : Prop := 0 <= r_last_sequence r < 2 ^ 32 /\ 0 <= r_last_part r < 2 ^ 32.

Definition key_ok (k : key) : Prop := tame (k_pssh k) /\ Forall is_byte (k_iv k) /\ 1 <= k_scheme k <= 3.

(* a rendition report: the uri of the playlist; what differs from this one *)
Definition report_of (c : channel) (id : list Z) (r : report) : list Z * option Z * option Z :=
  (str "index" ++ sep_selector id (Z.shiftl 1 (r_type r)) ++ str ".m3u8",
   if r_last_sequence r =? c_rr_last_sequence c then None else Some (r_last_sequence r),
   if r_last_part r =? c_rr_last_part c then None else Some (r_last_part r)).

Definition reports_of (c : channel) : list (list Z * option Z * option Z) :=
  flat_map (fun rr => map (report_of c (fst rr)) (snd rr)) (c_reports c).

Definition key_method (k : key) : list Z :=
  if k_scheme k =? 1 then str "AES-128" else if k_scheme k =? 2 then str "SAMPLE-AES"
  else if k_scheme k =? 3 then str "SAMPLE-AES-CTR" else [].

Definition key_uri (c : channel) (ty : Z) (k : key) : list Z :=
  match k_uri k with
  | Some u => quoted u
  | None => if k_scheme k =? 3 then str "data:text/plain;base64," ++ k_pssh k
            else enc_uri (k_scope k) (c_variant c) (Z.shiftl 1 ty)
  end.

(* the encryption *)
Definition enc_of (c : channel) (ty : Z) (k : key) : enc :=
  {| n_method := key_method k; n_uri := key_uri c ty k;
     n_iv := if k_output_iv k then Some (str "0x" ++ hex_string (k_iv k)) else None;
     n_format := if zlen (k_format k) =? 0 then None else Some (quoted (k_format k));
     n_versions := if zlen (k_format_versions k) =? 0 then None else Some (quoted (k_format_versions k)) |}.

(* ----- the head of the playlist *)

(* to the nearest integer, half up *)
Definition rounded (v scale : Z) : Z := (2 * v + scale) / (2 * scale).

Definition info_of (f : conf) (c : channel) (v : Z) : info :=
  let h := c_header c in
  let t := rounded (h_target_duration h) (c_timescale c) in
  {| i_m3u := true; i_target := Some t; i_version := Some v;
     i_sequence := Some (h_sequence h);
     i_discontinuities := Some (h_first_period_index h - h_skipped_periods h);
     i_block_reload := f_one_media f && f_block_reload f && negb (h_end_list h);
     i_skip_until := if f_skip_percent f =? 0 then None else Some (t * f_skip_percent f * 10);
     i_hold_back := if f_one_media f && f_parts f && negb (c_part_duration c =? 0)
                       && negb (f_hold_back_percent f =? 0)
                    then Some (c_part_duration c * f_hold_back_percent f * 10 / c_timescale c) else None;
     i_part_target := if f_one_media f && f_parts f && negb (c_part_duration c =? 0)
                      then Some (rounded (c_part_duration c * 1000) (c_timescale c)) else None;
     i_skipped := h_skipped_segments h;
     i_enc := option_map (enc_of c (match c_tracks c with t :: _ => t_type t | [] => 0 end)) (f_key f);
     i_ended := h_end_list h |}.

(* the protocol version that what is in a playlist asks for (RFC 8216,
   section 7): fractional durations, key formats and sample encryption,
   initialization segments of usual playlists, skipped segments *)
Definition required (y : player) : Z :=
  if 0 <? i_skipped (y_info y) then 9
  else if existsb (fun s => match s_map s with Some _ => true | None => false end) (y_segs y) then 6
  else match i_enc (y_info y) with
       | Some e => if list_eq_dec Z.eq_dec (n_method e) (str "SAMPLE-AES") then 5
                   else match n_format e, n_versions e with None, None => 3 | _, _ => 5 end
       | None => 3
       end.

(* the numbers fit, and the key is of the configured scheme *)
Definition head_ok (f : conf) (c : channel) : Prop :=
  let h := c_header c in
  let t := rounded (h_target_duration h) (c_timescale c) in
  0 <= h_sequence h < 2 ^ 32
  /\ 0 <= h_first_period_index h - h_skipped_periods h < 2 ^ 32
  /\ 0 <= h_target_duration h /\ h_target_duration h + c_timescale c < 2 ^ 32
  /\ 0 <= h_skipped_segments h < 2 ^ 32
  /\ 0 <= f_skip_percent f /\ t * f_skip_percent f * 10 < 2 ^ 32
  /\ 0 <= f_hold_back_percent f < 2 ^ 27
  /\ c_part_duration c * f_hold_back_percent f * 10 / c_timescale c < 2 ^ 32
  /\ 0 <= c_part_duration c < 2 ^ 32
  /\ Forall (fun rr => Forall is_byte (fst rr) /\ Forall report_ok (snd rr)) (c_reports c)
  /\ (forall k, f_key f = Some k -> key_ok k /\ k_scheme k = f_scheme f
       /\ f_format_len f = zlen (k_format k) + zlen (k_format_versions k)).

(* the segments that the playlist skips: the player has them, and with them
   the initialization segment of the last; the first period of the playlist
   is the one that segment belongs to, with the same initialization segment,
   unless its first segment is listed *)
Definition skip_ok (f : conf) (c : channel) (m : option (list Z)) : Prop :=
  let h := c_header c in
  if h_skipped_segments h =? 0 then m = None
  else 0 <= h_last_skipped_index h < INVALID_INDEX /\ m = init_uri f c (h_last_skipped_index h)
       /\ match c_periods c with
          | p :: _ => h_last_skipped_index h <= p_index p
              /\ (p_index p <> h_first_initial_index h ->
                  info_at (p_index p) c = info_at (h_last_skipped_index h) c)
          | [] => True
          end.

Definition playlist_ok (f : conf) (c : channel) (m : option (list Z)) : Prop :=
  chan_ok f c /\ tracks_ok c /\ dates_ok f /\ periods_ok 0 (c_periods c)
  /\ rates_ok f c (c_periods c) /\ head_ok f c /\ skip_ok f c m.

(* ----- what the size of the buffer relies on *)

(* a date takes 19 characters *)
Definition date_len (f : conf) : Prop := forall t, zlen (f_date f t) = 19.

(* there is an estimator for every track *)
Definition est_len (f : conf) : Prop := forall infos, length (f_est f infos) = length infos.

(* initialization vectors have 16 bytes, and no initialization segment comes
   after the last segment *)
Definition sizes_ok (f : conf) (c : channel) : Prop :=
  date_len f /\ est_len f /\ (forall k, f_key f = Some k -> zlen (k_iv k) = 16)
  /\ Forall (fun p => info_at (p_index p) c < p_index (last_period c) + p_count (last_period c)) (c_periods c).

(* ----- time *)

Definition total (l : list Z) : Z := fold_right Z.add 0 l.

(* the time of [v] units is [ms] milliseconds, give or take less than one *)
Definition about (c : channel) (v ms : Z) : Prop :=
  - c_timescale c < 1000 * v - c_timescale c * ms < c_timescale c.

(* the parts of a segment, up to the hint, as durations *)
Definition part_durations (i : Z) (c : channel) : list Z :=
  map (fun d => d mod 2 ^ 30) (filter (fun d => negb (d =? PRELOAD_HINT)) (parts_at i c)).

(* ----- delta updates: [d] is the channel [c] as the segmenter sends it when
   the player may skip the first [k] segments: it leaves out [gone] periods
   and the first [n] segments of the next, [p], of which [q] remains *)
Definition skips (c d : channel) (k : nat) : Prop :=
  exists gone p q rest n,
    c_periods c = gone ++ p :: rest /\ c_periods d = q :: rest
    /\ segments q = skipn n (segments p) /\ (n <= length (segments p))%nat
    /\ p_index q = p_index p + Z.of_nat n
    /\ existsb (fun e => snd e =? 0) (p_elts q) = existsb (fun e => snd e =? 0) (p_elts p)
    /\ k = (length (flat_map segments gone) + n)%nat /\ (0 < k)%nat
    /\ h_skipped_segments (c_header c) = 0 /\ h_skipped_segments (c_header d) = Z.of_nat k
    /\ h_first_initial_index (c_header d) = p_index p
    /\ (n = 0%nat -> gone <> [])
    /\ h_skipped_periods (c_header c) = 0
    /\ h_skipped_periods (c_header d) = zlen gone
    /\ h_first_period_index (c_header d) = h_first_period_index (c_header c) + zlen gone
    /\ h_sequence (c_header d) = h_sequence (c_header c)
    /\ c_timescale d = c_timescale c /\ c_variant d = c_variant c /\ c_media_types d = c_media_types c
    (* the tracks say the same of the segments that are left; a period has
       one initialization segment *)
    /\ (forall i, p_index q <= i -> gap_at i d = gap_at i c /\ parts_at i d = parts_at i c)
    /\ info_at (p_index q) d = info_at (p_index p) c
    /\ (forall r, In r rest -> p_index q <= p_index r /\ info_at (p_index r) d = info_at (p_index r) c).

(* what a player keeps of a segment when a playlist is loaded again: all but
   the date and the bitrate, which a delta update may give again or not *)
Definition lasting (s : seg) : list Z * Z * bool * bool * option (list Z) * list part :=
  (s_uri s, s_ms s, s_discontinuity s, s_gap s, s_map s, s_parts s).
