(* How the packager makes a fragmented mp4 segment:
     nginx-pckg-module/src/media/mp4/mp4_muxer.c:150-1333 and
     nginx-pckg-module/src/ngx_http_pckg_core_module.c:1010-1045 (the source of the
     frames).

   The frames of a track are in one part of the list (ngx_http_pckg_core_module.c:
   1333-1334), next to each other in memory from t_base.  Memory is a function from
   addresses to bytes.  Allocation does not fail.  The list of the subtitle frames
   converted to TTML, and CBCS (per_stream_writer), are not modelled. *)

From Coq Require Import ZArith List Bool Lia.
From Verif Require Import Lists Bytes.
Import ListNotations.
Open Scope Z_scope.

Inductive mtype := Video | Audio | Webvtt.

(* input_frame_t, frames_source.h:8-13. *)
Record fr := Fr { f_size : Z; f_key : bool; f_dur : Z; f_delay : Z }.

(* media_segment_track_t, media_format.h:117-127; t_base and t_len are the buffer of
   the source. *)
Record track := Track {
  t_type : mtype;
  t_scale : Z;
  t_dts : Z;
  t_frames : list fr;
  t_base : Z;
  t_len : Z
}.

(* media_segment_t, media_format.h:129-137. *)
Record segm := Segm { s_index : Z; s_tracks : list track; s_meta : list Z }.

Definition zlen {A} (l : list A) : Z := Z.of_nat (length l).

(* write_atom_header, mp4_write_stream.h:10-14. *)
Definition atom_header (size : Z) (name : list Z) : list Z := be 4 size ++ name.

(* ------------------------------------------------------------------ *)
(* Which frame is next                                                  *)

(* mp4_muxer_stream_state_t, mp4_muxer.c:17-45, what is used to choose: the frames
   from cur_frame, and next_frame_time_offset (uint64_t). *)
Record stream := Stream { u_scale : Z; u_next : Z; u_left : list fr }.

(* mp4_muxer_init_track, mp4_muxer.c:507-525, and mp4_muxer_reset, 631-646. *)
Definition stream_of (t : track) : stream :=
  Stream (t_scale t) (u64 (t_dts t)) (t_frames t).

(* mp4_muxer_choose_stream, mp4_muxer.c:528-567: i is the index of the first stream
   of l, best is min_dts with min_time_offset. *)
Fixpoint choose (sel : option nat) (i : nat) (l : list stream) (best : option (nat * Z))
    : option nat :=
  match l with
  | [] => match best with Some (j, _) => Some j | None => None end
  | u :: l =>
      match u_left u with
      | [] => choose sel (S i) l best
      | _ =>
          let better := match best with Some (_, m) => u_next u <? m | None => true end in
          let m := if match sel with Some j => Nat.eqb j i | None => false end
                   then u_next u else u64 (u_next u + u_scale u / 4) in
          choose sel (S i) l (if better then Some (i, m) else best)
      end
  end.

(* The frame is taken: mp4_muxer.c:617-619 and 1193-1196. *)
Definition take (u : stream) : option (fr * stream) :=
  match u_left u with
  | [] => None
  | f :: l => Some (f, Stream (u_scale u) (u64 (u_next u + f_dur f)) l)
  end.

(* The frames in the order they are taken: the loops of mp4_calculate_output_offsets,
   mp4_muxer.c:583-620, and of mp4_muxer_process_frames, 1221-1330, which start from
   the same state (631-646).  fuel bounds the frames. *)
Fixpoint order (fuel : nat) (sel : option nat) (us : list stream) : list (nat * fr) :=
  match fuel with
  | O => []
  | S fuel =>
      match choose sel 0 us None with
      | None => []
      | Some i =>
          match nth_error us i with
          | None => []
          | Some u =>
              match take u with
              | None => []
              | Some (f, u') => (i, f) :: order fuel (Some i) (set_nth us i u')
              end
          end
      end
  end.

Definition frames_of (s : segm) : list (nat * fr) :=
  order (length (concat (map t_frames (s_tracks s)))) None (map stream_of (s_tracks s)).

(* ------------------------------------------------------------------ *)
(* Where the frames are in the mdat                                     *)

(* mp4_calculate_output_offsets, mp4_muxer.c:571-629.  For each stream: the offsets of
   its frames, the last first, and last_frame_size, None for UINT_MAX.  The result has
   the size of all frames and trun_atom_count. *)
Record outs := Outs { v_offs : list Z; v_last : option Z }.

Fixpoint offsets (l : list (nat * fr)) (vs : list outs) (cur truns : Z)
    : list outs * Z * Z :=
  match l with
  | [] => (vs, cur, truns)
  | (i, f) :: l =>
      match nth_error vs i with
      | None => (vs, cur, truns)
      | Some v =>
          let sw :=
            match v_last v, v_offs v with
            | Some z, o :: _ => negb (cur =? u32 (o + z))
            | _, _ => true
            end in
          offsets l (set_nth vs i (Outs (cur :: v_offs v) (Some (f_size f))))
            (u32 (cur + f_size f)) (if sw then truns + 1 else truns)
      end
  end.

(* ------------------------------------------------------------------ *)
(* The boxes                                                            *)

(* mp4_muxer_write_trun_header, mp4_muxer.c:203-221. *)
Definition trun_header (off count fsize flags : Z) : list Z :=
  atom_header (20 + fsize * count) [116; 114; 117; 110] ++
  be 4 flags ++ be 4 count ++ be 4 off.

(* mp4_muxer_write_video_trun_frame, audio_trun_frame and subtitle_trun_frame,
   mp4_muxer.c:224-260: d is initial_pts_delay, or pts_delay for subtitles. *)
Definition trun_frame (k : mtype) (d : Z) (f : fr) : list Z :=
  match k with
  | Video =>
      be 4 (f_dur f) ++ be 4 (f_size f) ++
      be 4 (if f_key f then 33554432 else 16842752) ++ be 4 (f_delay f - d)
  | Audio => be 4 (f_dur f) ++ be 4 (f_size f)
  | Webvtt => be 4 (f_delay f) ++ be 4 (f_size f) ++ be 4 d
  end.

(* sizeof(trun_video_frame_t) ..., mp4_muxer.c:76-92, and the flags, 12-14 and 327,
   394, 473. *)
Definition trun_size (k : mtype) : Z := match k with Video => 16 | Audio => 8 | Webvtt => 12 end.
Definition trun_flags (k : mtype) : Z :=
  match k with Video => 16777216 + 3841 | Audio => 769 | Webvtt => 2817 end.

(* mp4_muxer_write_video_trun_atoms, audio_trun_atoms and subtitle_trun_atoms,
   mp4_muxer.c:263-501.  The atom that is open: its start_offset, its frame count and
   the bytes of its frames; cur is cur_offset.  done has the atoms before. *)
Fixpoint truns (k : mtype) (base : Z) (l : list (Z * fr)) (d cur : Z)
    (open : option (Z * Z * list Z)) : list Z :=
  let close :=
    match open with
    | Some (start, n, b) => trun_header (u32 (base + start)) n (trun_size k) (trun_flags k) ++ b
    | None => []
    end in
  match l with
  | [] => close
  | (o, f) :: l =>
      let b := trun_frame k d f in
      let d' := match k with Webvtt => u32 (d + f_dur f) | _ => d end in
      if negb (o =? cur)
      then close ++ truns k base l d' (u32 (o + f_size f)) (Some (o, 1, b))
      else
        match open with
        | Some (start, n, b0) =>
            truns k base l d' (u32 (cur + f_size f)) (Some (start, n + 1, b0 ++ b))
        | None => truns k base l d' (u32 (cur + f_size f)) None
        end
  end.

(* initial_pts_delay, mp4_muxer.c:284-292. *)
Definition delay0 (t : track) : Z :=
  match t_type t, t_frames t with Video, f :: _ => f_delay f | _, _ => 0 end.

Definition track_truns (base : Z) (t : track) (offs : list Z) : list Z :=
  truns (t_type t) base (combine offs (t_frames t)) (delay0 t) (2 ^ 32 - 1) None.

(* mp4_muxer_get_earliest_pres_time, mp4_muxer.c:717-735, and the clamp at 893-897 and
   988-992. *)
Definition earliest (t : track) : Z :=
  let r := t_dts t + delay0 t in
  if r <? 0 then 0 else r.

(* mp4_fragment_write_mfhd_atom, mp4_muxer.c:150-160. *)
Definition mfhd (ix : Z) : list Z :=
  atom_header 16 [109; 102; 104; 100] ++ be 4 0 ++ be 4 ix.

(* mp4_fragment_write_tfhd_atom, mp4_muxer.c:163-188. *)
Definition tfhd (id sdi : Z) : list Z :=
  if 0 <? sdi
  then atom_header 20 [116; 102; 104; 100] ++ be 4 131074 ++ be 4 id ++ be 4 sdi
  else atom_header 16 [116; 102; 104; 100] ++ be 4 131072 ++ be 4 id.

(* mp4_fragment_write_tfdt64_atom, mp4_muxer.c:191-200. *)
Definition tfdt (t : Z) : list Z :=
  atom_header 20 [116; 102; 100; 116] ++ be 4 16777216 ++ be 8 t.

(* dash_packager_write_sidx_atom and sidx64_atom, mp4_muxer.c:738-782. *)
Definition sidx (scale ept size dur : Z) : list Z :=
  if ept >? 2 ^ 32 - 1
  then atom_header 52 [115; 105; 100; 120] ++ be 4 16777216 ++ be 4 1 ++ be 4 scale ++
       be 8 ept ++ be 8 0 ++ be 4 1 ++ be 4 size ++ be 4 dur ++ be 4 2415919104
  else atom_header 44 [115; 105; 100; 120] ++ be 4 0 ++ be 4 1 ++ be 4 scale ++
       be 4 ept ++ be 4 0 ++ be 4 1 ++ be 4 size ++ be 4 dur ++ be 4 2415919104.

(* styp_atom, mp4_muxer.c:138-145. *)
Definition styp : list Z :=
  [0; 0; 0; 24; 115; 116; 121; 112; 109; 115; 100; 104; 0; 0; 0; 0;
   109; 115; 100; 104; 109; 115; 105; 120].

(* EMSG_ID3_SCHEME_URI, mp4_muxer.c:9, with its null. *)
Definition emsg_uri : list Z :=
  [104; 116; 116; 112; 115; 58; 47; 47; 100; 101; 118; 101; 108; 111; 112; 101; 114; 46;
   97; 112; 112; 108; 101; 46; 99; 111; 109; 47; 115; 116; 114; 101; 97; 109; 105; 110;
   103; 47; 101; 109; 115; 103; 45; 105; 100; 51; 0].

(* write_be32_synchsafe, id3_defs.h:8-14. *)
Definition synchsafe (n : Z) : list Z :=
  [n / 2097152 mod 128; n / 16384 mod 128; n / 128 mod 128; n mod 128].

(* mp4_muxer_write_id3_text_frame, mp4_muxer.c:785-808, with the template of
   id3_defs.c:4-18. *)
Definition id3_text (text : list Z) : list Z :=
  [73; 68; 51; 4; 0; 0] ++ synchsafe (zlen text + 1 + 10) ++
  [84; 69; 88; 84] ++ synchsafe (zlen text + 1) ++ [0; 0] ++ [3] ++ text.

(* mp4_muxer_write_emsg_atom, mp4_muxer.c:811-840. *)
Definition emsg (size : Z) (s : segm) (t : track) : list Z :=
  atom_header size [101; 109; 115; 103] ++ be 4 16777216 ++ be 4 (t_scale t) ++
  be 8 (Z.max (t_dts t) 0) ++ be 4 1 ++ be 4 (s_index s) ++ emsg_uri ++ [0] ++
  id3_text (s_meta s).

(* ------------------------------------------------------------------ *)
(* The header                                                           *)

(* What the callers add to each traf: mp4_muxer_header_extensions_t, mp4_muxer.h; the
   callback gets moof_atom_size. *)
Record ext := Ext { x_size : Z; x_write : Z -> list Z }.
Definition no_ext : ext := Ext 0 (fun _ => []).

(* moof_atom_size, mp4_muxer.c:872-907. *)
Definition moof_size (s : segm) (sdi : Z) (x : ext) (ntruns : Z) : Z :=
  8 + 16 + (8 + (if 0 <? sdi then 20 else 16) + 20 + x_size x) * zlen (s_tracks s) +
  20 * ntruns +
  fold_right (fun t n => zlen (t_frames t) * trun_size (t_type t) + n) 0 (s_tracks s).

(* The trafs, mp4_muxer.c:973-1034. *)
Fixpoint trafs (ix sdi : Z) (x : ext) (moof : Z) (ts : list track) (vs : list outs) : list Z :=
  match ts, vs with
  | t :: ts, v :: vs =>
      let b := tfhd (ix + 1) sdi ++ tfdt (earliest t) ++
               track_truns (moof + 8) t (rev (v_offs v)) ++ x_write x moof in
      atom_header (8 + zlen b) [116; 114; 97; 102] ++ b ++ trafs (ix + 1) sdi x moof ts vs
  | _, _ => []
  end.

(* total_frames_duration, mp4_muxer.c:622-625: of the first stream. *)
Definition total_dur (t : track) : Z :=
  u64 (fold_right (fun f n => f_dur f + n) 0 (t_frames t)).

(* emsg_atom_size, mp4_muxer.c:927-935. *)
Definition emsg_size (s : segm) : Z :=
  match s_meta s, s_tracks s with
  | _ :: _, t :: _ =>
      match t_frames t with [] => 0 | _ => 8 + 24 + 47 + 1 + 21 + zlen (s_meta s) end
  | _, _ => 0
  end.

Inductive res (A : Type) := Ok (a : A) | Err.
Arguments Ok {A}. Arguments Err {A}.

(* mp4_muxer_build_fragment_header, mp4_muxer.c:843-1065: the header, nothing if only
   the size is wanted, and total_fragment_size. *)
Definition build_header (s : segm) (sdi : Z) (x : ext) (size_only : bool)
    : res (list Z * Z) :=
  let '(vs, fsize, ntruns) :=
    offsets (frames_of s) (map (fun _ => Outs [] None) (s_tracks s)) 0 0 in
  let mdat := fsize + 8 in
  let moof := moof_size s sdi x ntruns in
  let single := match s_tracks s with [t] => Some t | _ => None end in
  let styp_size := match single with Some _ => 24 | None => 0 end in
  let sidx_size :=
    match single with
    | Some t => if earliest t >? 2 ^ 32 - 1 then 52 else 44
    | None => 0
    end in
  let total := styp_size + emsg_size s + sidx_size + moof + mdat in
  if size_only then Ok ([], total)
  else
    let h :=
      (match single with Some _ => styp | None => [] end) ++
      (match s_tracks s with
       | t :: _ => if 0 <? emsg_size s then emsg (emsg_size s) s t else []
       | [] => []
       end) ++
      (match single with
       | Some t => sidx (t_scale t) (earliest t) (u32 (moof + mdat)) (total_dur t)
       | None => []
       end) ++
      atom_header moof [109; 111; 111; 102] ++ mfhd (s_index s) ++
      trafs 0 sdi x moof (s_tracks s) vs ++
      atom_header mdat [109; 100; 97; 116] in
    if zlen h =? styp_size + emsg_size s + sidx_size + moof + 8
    then Ok (h, total) else Err.

(* ------------------------------------------------------------------ *)
(* The data                                                             *)

Definition bytes (mem : Z -> Z) (a n : Z) : list Z :=
  map (fun i => mem (a + Z.of_nat i)) (seq 0 (Z.to_nat n)).

(* ngx_http_pckg_source_read, ngx_http_pckg_core_module.c:1027-1049: the addresses and
   the sizes of the frames in the order of l, with the stream.  ps has pos and left of
   the sources.  Err for a frame that is not in the buffer; the frames before it were
   written. *)
Fixpoint reads (l : list (nat * fr)) (ps : list (Z * Z)) : list (nat * Z * Z) * bool :=
  match l with
  | [] => ([], true)
  | (i, f) :: l =>
      match nth_error ps i with
      | None => ([], false)
      | Some (pos, avail) =>
          if avail <? f_size f then ([], false)
          else
            let '(rs, ok) := reads l (set_nth ps i (pos + f_size f, avail - f_size f)) in
            ((i, pos, f_size f) :: rs, ok)
      end
  end.

(* mp4_muxer_process_frames, mp4_muxer.c:1210-1333: what is written, address and size,
   for the reads l.  w is write_buffer with its size; cnt has, for each stream, the
   frames that were not read yet, for cur_frame >= last_frame.  A read never returns
   VOD_AGAIN here. *)
Fixpoint writes (reuse : bool) (l : list (nat * Z * Z)) (cnt : list nat) (w : Z * Z)
    : list (Z * Z) :=
  match l with
  | [] => []
  | (i, a, n) :: l =>
      let '(wa, wn) := w in
      let more := Nat.pred (nth i cnt 0%nat) in
      let cnt := set_nth cnt i more in
      let '(out, w) :=
        if reuse then ([(a, n)], w)
        else if negb (wn =? 0) then
          if wa + wn =? a then ([], (wa, wn + n)) else ([(wa, wn)], (a, n))
        else ([], (a, n)) in
      let '(out', w) :=
        match more with
        | O => if negb (snd w =? 0) then ([w], (fst w, 0)) else ([], w)
        | _ => ([], w)
        end in
      out ++ out' ++ writes reuse l cnt w
  end.

(* The writes of a segment and whether all frames were found. *)
Definition segment_writes (reuse : bool) (s : segm) : list (Z * Z) * bool :=
  let '(rs, ok) := reads (frames_of s) (map (fun t => (t_base t, t_len t)) (s_tracks s)) in
  (writes reuse rs (map (fun t => length (t_frames t)) (s_tracks s)) (0, 0), ok).

(* A segment that is not encrypted: mp4_muxer_init_fragment, mp4_muxer.c:1122-1173, and
   ngx_http_pckg_core_write_segment, ngx_http_pckg_core_module.c:1427-1532.  The
   announced size and the body; Err when there is an error before the end. *)
Definition plain_segment (mem : Z -> Z) (s : segm) : res (Z * list Z) :=
  match build_header s 1 no_ext false with
  | Err => Err
  | Ok (h, total) =>
      let '(ws, ok) := segment_writes false s in
      if ok then Ok (total, h ++ concat (map (fun w => bytes mem (fst w) (snd w)) ws))
      else Err
  end.
