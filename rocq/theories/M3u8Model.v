(* Model of the HLS media playlist (the "index" playlist) that the packager
   builds from a channel it got from the live server:
   nginx-pckg-module/src/ngx_http_pckg_m3u8.c, with the iterators it uses in
   ngx_pckg_segment_info.c and ngx_pckg_media_info.c and the selectors of
   ngx_pckg_utils.c.

   Text is a list of byte values.  A function that takes and returns a write
   pointer is modelled by the text it appends; the announced size of the
   buffer is computed by a separate function, as in the code.

   Not modelled, and taken as inputs: the evaluation of nginx complex values
   (the percents and flags of [conf]), the calendar of ngx_gmtime ([f_date]),
   the estimators of the containers ([f_est]), the base64 text of the pssh
   boxes ([k_pssh]). *)
From Coq Require Import String Ascii ZArith List Bool.
From Verif Require Import Bytes.
Import ListNotations.
Open Scope Z_scope.

(* a C string literal as bytes *)
Definition str (s : string) : list Z :=
  map (fun a => Z.of_nat (nat_of_ascii a)) (list_ascii_of_string s).

Definition zlen {A} (l : list A) : Z := Z.of_nat (length l).

Definition nl : Z := 10.
Definition quote : Z := 34.

(* NGX_INT32_LEN of nginx: sizeof("-2147483648") - 1 *)
Definition INT32_LEN : Z := 11.

(* nginx-common/src/ngx_ksmp.h:69-80 *)
Definition INVALID_INDEX : Z := 2 ^ 32 - 1.
Definition PENDING : Z := 0.
Definition NO_BITRATE : Z := 1.
Definition PRELOAD_HINT : Z := 2 ^ 32 - 1.
Definition PART_GAP : Z := 2 ^ 30.
Definition PART_INDEPENDENT : Z := 2 ^ 31.
Definition PART_MASK : Z := 2 ^ 30 - 1.

(* ngx_sprintf "%uD": the decimal digits of a uint32_t *)
Fixpoint dec_f (fuel : nat) (n : Z) : list Z :=
  match fuel with
  | O => []
  | S f => if n <? 10 then [48 + n] else dec_f f (n / 10) ++ [48 + n mod 10]
  end.
Definition dec (n : Z) : list Z := dec_f 20 (u32 n).

(* ngx_sprintf "%03uD" *)
Definition dec3 (n : Z) : list Z :=
  let d := dec n in repeat 48 (3 - length d) ++ d.

(* ngx_sprintf "%uD.%03uD" with v / 1000, v % 1000 *)
Definition secs (v : Z) : list Z := dec (v / 1000) ++ str "." ++ dec3 (v mod 1000).

(* vod_get_int_print_len, nginx-pckg-module/src/media/common.c:4-13 *)
Fixpoint print_len_f (fuel : nat) (n : Z) : Z :=
  match fuel with
  | O => 1
  | S f => if 10 <=? n then 1 + print_len_f f (n / 10) else 1
  end.
Definition print_len (n : Z) : Z := print_len_f 20 n.

(* media/common.c:25-36 *)
Definition hex_char (n : Z) : Z := if n <? 10 then 48 + n else 55 + n.
Definition hex_string (l : list Z) : list Z :=
  flat_map (fun b => [hex_char (b / 16); hex_char (b mod 16)]) l.

(* ngx_escape_uri with NGX_ESCAPE_URI_COMPONENT, nginx core (not in the
   repository): everything but letters, digits and "-._~" becomes %XX *)
Definition unreserved (c : Z) : bool :=
  ((48 <=? c) && (c <=? 57)) || ((65 <=? c) && (c <=? 90)) || ((97 <=? c) && (c <=? 122))
  || (c =? 45) || (c =? 46) || (c =? 95) || (c =? 126).
Definition escape (l : list Z) : list Z :=
  flat_map (fun c => if unreserved c then [c] else 37 :: hex_string [c]) l.
(* ngx_escape_uri with a NULL destination: the number of bytes to escape *)
Definition escape_count (l : list Z) : Z :=
  zlen (filter (fun c => negb (unreserved c)) l).

(* ngx_pckg_write_media_type_mask, ngx_pckg_utils.c:135-151 *)
Definition mask_text (mask : Z) : list Z :=
  if mask =? 7 then []
  else str "-" ++ (if Z.testbit mask 0 then str "v" else [])
         ++ (if Z.testbit mask 1 then str "a" else [])
         ++ (if Z.testbit mask 2 then str "t" else []).

(* ngx_pckg_selector_get_size and ngx_pckg_sep_selector_get_size,
   ngx_pckg_utils.c:155-161 and 179-182 *)
Definition sep_selector_size (id : list Z) : Z :=
  zlen (str "-") + (zlen (str "s") + zlen id + 2 * escape_count id + zlen (str "-") + 3).

(* ngx_pckg_selector_write and ngx_pckg_sep_selector_write,
   ngx_pckg_utils.c:165-175 and 186-191 *)
Definition sep_selector (id : list Z) (mask : Z) : list Z :=
  str "-" ++ str "s" ++ escape id ++ mask_text mask.

(* ----- what the live server sent: ngx_ksmp.h:118-165, ngx_pckg_ksmp.h:65-140 *)

Record period := {
  p_time : Z;                     (* header.time *)
  p_index : Z;                    (* header.segment_index *)
  p_elts : list (Z * Z)           (* count, duration *)
}.

(* period->segment_count, ngx_pckg_ksmp.c:300-355 *)
Definition p_count (p : period) : Z := fold_right (fun e a => fst e + a) 0 (p_elts p).

Record track := {
  t_type : Z;                     (* header.media_type: 0 video, 1 audio, 2 subtitle *)
  t_minfo : list Z;               (* segment_index of each media info *)
  t_sinfo : list (Z * Z);         (* index, bitrate *)
  t_parts : list (Z * list Z)     (* segment_index, durations *)
}.

Record header := {
  h_sequence : Z;
  h_first_period_index : Z;
  h_first_initial_index : Z;      (* first_period_initial_segment_index *)
  h_target_duration : Z;
  h_end_list : bool;
  h_skipped_periods : Z;
  h_skipped_segments : Z;
  h_last_skipped_index : Z
}.

(* ngx_ksmp_rendition_report_t *)
Record report := { r_type : Z; r_last_sequence : Z; r_last_part : Z }.

Record channel := {
  c_timescale : Z;
  c_part_duration : Z;
  c_media_types : Z;              (* channel->media_types *)
  c_variant : list Z;             (* id of the first variant *)
  c_header : header;
  c_periods : list period;
  c_tracks : list track;
  c_reports : list (list Z * list report);     (* variant id, tracks *)
  c_rr_last_sequence : Z;
  c_rr_last_part : Z
}.

(* media_bitrate_estimator_t, media/media_format.h:152-162 *)
Record est := { e_num : Z; e_den : Z; e_k2 : Z; e_k3 : Z }.

(* media_bitrate_estimate, media/media_format.h:19-20 *)
Definition estimate (e : est) (bitrate duration : Z) : Z :=
  u64 (u64 (bitrate * e_num e) / e_den e + u64 (e_k2 e * 1000) / duration + e_k3 e).

(* the encryption of the first track: media_enc_t and the location
   configuration; [k_uri] is the configured key uri, when there is one *)
Record key := {
  k_scheme : Z;                   (* 1 aes-128, 2 cbcs, 3 cenc *)
  k_scope : Z;                    (* 0 channel, 1 media type, 2 variant, 3 track *)
  k_uri : option (list Z);
  k_pssh : list Z;
  k_iv : list Z;
  k_output_iv : bool;
  k_format : list Z;
  k_format_versions : list Z
}.

Record conf := {
  f_seg_ext : list Z;             (* container->seg_file_ext *)
  f_init_ext : option (list Z);   (* container->init_file_ext *)
  f_est : list (option Z) -> list est;  (* container->get_bitrate_estimator *)
  f_pdt : bool;                   (* program_date_time *)
  f_date : Z -> list Z;           (* "%4d-%02d-%02dT%02d:%02d:%02d" of ngx_gmtime *)
  f_scheme : Z;                   (* elcf->scheme *)
  f_format_len : Z;               (* mlcf->enc.key_format.len + key_format_versions.len *)
  f_key : option key;             (* the enc of the first track *)
  f_parts : bool;                 (* mlcf->parts *)
  f_one_media : bool;             (* ctx->params.media_type_count == 1 *)
  f_skip_percent : Z;
  f_block_reload : bool;
  f_hold_back_percent : Z
}.

(* ----- ngx_pckg_segment_info.c *)

(* bitrate, remaining elements *)
Definition iter := (Z * list (Z * Z))%type.

(* ngx_pckg_segment_info_iter_reset, 7-19 *)
Definition iter_reset (t : track) : iter :=
  (NO_BITRATE, if t_type t =? 2 then [] else t_sinfo t).

(* ngx_pckg_segment_info_iter_get, 23-32 *)
Fixpoint iter_adv (rate : Z) (l : list (Z * Z)) (index : Z) : iter :=
  match l with
  | (i, b) :: r => if i <=? index then iter_adv b r index else (rate, l)
  | [] => (rate, l)
  end.
Definition iter_get (it : iter) (index : Z) : iter := iter_adv (fst it) (snd it) index.

(* ngx_pckg_segment_info_iter_has_bitrate, 36-47 *)
Definition iter_has_bitrate (it : iter) : bool :=
  existsb (fun e => negb (snd e =? 0) && negb (snd e =? NO_BITRATE)) (snd it).

(* ngx_pckg_segment_info_iter_gap_count, 51-85: the loop after the first
   while *)
Fixpoint gap_loop (rate : Z) (l : list (Z * Z)) (start last count : Z) : iter * Z :=
  match l with
  | (i, b) :: r =>
      if i >=? last
      then ((rate, l), if rate =? 0 then u32 (count + u32 (last - start)) else count)
      else gap_loop b r i last (if rate =? 0 then u32 (count + u32 (i - start)) else count)
  | [] => ((rate, l), if rate =? 0 then u32 (count + u32 (last - start)) else count)
  end.
Definition iter_gap_count (it : iter) (first last : Z) : iter * Z :=
  let it' := iter_get it first in gap_loop (fst it') (snd it') first last 0.

(* ngx_pckg_segment_info_get, 130-162 *)
Fixpoint info_get (its : list iter) (es : list est) (index duration acc : Z) : list iter * Z :=
  match its, es with
  | it :: its', e :: es' =>
      let it' := iter_get it index in
      if fst it' =? NO_BITRATE then (it' :: its', NO_BITRATE)
      else
        let acc' := if fst it' =? 0 then acc
                    else u32 (acc + estimate e (fst it') duration) in
        let '(x, v) := info_get its' es' index duration acc' in (it' :: x, v)
  | _, _ => (its, acc)
  end.
Definition segment_info_get (its : list iter) (es : list est) (index duration : Z) : list iter * Z :=
  info_get its es index (if duration <=? 0 then 1 else duration) 0.

(* ngx_pckg_segment_info_has_bitrate, 166-177 *)
Definition has_bitrate (its : list iter) : bool := existsb iter_has_bitrate its.

(* ngx_pckg_segment_info_min_gap_count, 181-201 *)
Fixpoint min_gap (its : list iter) (first last m : Z) : list iter * Z :=
  match its with
  | it :: r =>
      let '(it', g) := iter_gap_count it first last in
      let '(r', m') := min_gap r first last (if m >? g then g else m) in (it' :: r', m')
  | [] => ([], m)
  end.
Definition min_gap_count (its : list iter) (first last : Z) : list iter * Z :=
  min_gap its first last (2 ^ 32 - 1).

(* ----- ngx_pckg_media_info.c *)

(* ngx_pckg_media_info_iter_get, 16-33: the iterator is the list from the
   current element on; the media info is given as its segment index *)
Fixpoint minfo_adv (l : list Z) (index : Z) : list Z :=
  match l with
  | a :: ((b :: _) as r) => if b <=? index then minfo_adv r index else l
  | _ => l
  end.

(* ngx_pckg_media_info_get, 87-111 *)
Fixpoint minfo_get (its : list (list Z)) (index map_index : Z)
  : list (list Z) * list (option Z) * Z :=
  match its with
  | it :: r =>
      let it' := minfo_adv it index in
      let cur := hd 0 it' in
      let info := if cur <=? index then Some cur else None in
      let m := if map_index >? index
               then (if cur <? map_index then cur else map_index)
               else if (cur >? map_index) && (cur <=? index) then cur else map_index in
      let '(r', infos, m') := minfo_get r index m in (it' :: r', info :: infos, m')
  | [] => ([], [], map_index)
  end.
Definition media_info_get (its : list (list Z)) (index : Z) :=
  minfo_get its index INVALID_INDEX.

(* ----- ngx_http_pckg_m3u8.c *)

(* ngx_http_pckg_m3u8_quoted_str_write, 350-375 *)
Definition quoted (l : list Z) : list Z :=
  filter (fun c => negb ((c =? quote) || (c =? 10) || (c =? 13))) l.

(* ngx_http_pckg_enc_key_uri_get_size, ngx_http_pckg_enc.c:604-627 *)
Definition enc_uri_size (scope : Z) (id : list Z) : Z :=
  zlen (str "enc") + zlen (str ".key")
  + (if scope =? 1 then 3 else if (scope =? 2) || (scope =? 3) then sep_selector_size id else 0).

(* ngx_http_pckg_enc_key_uri_write, ngx_http_pckg_enc.c:631-658 *)
Definition enc_uri (scope : Z) (id : list Z) (media_types : Z) : list Z :=
  str "enc"
  ++ (if scope =? 1 then mask_text media_types
      else if scope =? 2 then sep_selector id 7
      else if scope =? 3 then sep_selector id media_types else [])
  ++ str ".key".

(* ngx_http_pckg_m3u8_enc_key_get_size, 497-548; the size of the pssh text
   is taken as the length of that text *)
Definition key_size (tag : list Z) (id : list Z) (ok : option key) : Z :=
  match ok with
  | None => 0
  | Some k =>
      zlen tag + zlen (str "METHOD=") + zlen (str "SAMPLE-AES-CTR") + zlen (str ",URI=""")
      + 2
      + match k_uri k with
        | Some u => zlen u
        | None => if k_scheme k =? 3 then zlen (str "data:text/plain;base64,") + zlen (k_pssh k)
                  else enc_uri_size (k_scope k) id
        end
      + (if k_output_iv k then zlen (str ",IV=0x") + 16 * 2 else 0)
      + (if zlen (k_format k) =? 0 then 0 else zlen (str ",KEYFORMAT=""") + 1 + zlen (k_format k))
      + (if zlen (k_format_versions k) =? 0 then 0
         else zlen (str ",KEYFORMATVERSIONS=""") + 1 + zlen (k_format_versions k))
  end.

(* ngx_http_pckg_m3u8_enc_key_write, 552-628 *)
Definition key_text (tag : list Z) (id : list Z) (media_type : Z) (ok : option key) : list Z :=
  match ok with
  | None => []
  | Some k =>
      tag ++ str "METHOD="
      ++ (if k_scheme k =? 1 then str "AES-128"
          else if k_scheme k =? 2 then str "SAMPLE-AES"
          else if k_scheme k =? 3 then str "SAMPLE-AES-CTR" else [])
      ++ str ",URI="""
      ++ match k_uri k with
         | Some u => quoted u
         | None => if k_scheme k =? 3 then str "data:text/plain;base64," ++ k_pssh k
                   else enc_uri (k_scope k) id (Z.shiftl 1 media_type)
         end
      ++ [quote]
      ++ (if k_output_iv k then str ",IV=0x" ++ hex_string (k_iv k) else [])
      ++ (if zlen (k_format k) =? 0 then []
          else str ",KEYFORMAT=""" ++ quoted (k_format k) ++ [quote])
      ++ (if zlen (k_format_versions k) =? 0 then []
          else str ",KEYFORMATVERSIONS=""" ++ quoted (k_format_versions k) ++ [quote])
      ++ [nl]
  end.

(* ngx_http_pckg_m3u8_get_gap_size, 1511-1550 *)
Fixpoint gap_total (bi : list iter) (ps : list period) (total : Z) : Z :=
  match ps with
  | p :: r =>
      let '(bi', g) := min_gap_count bi (p_index p) (u32 (p_index p + p_count p)) in
      gap_total bi' r (u32 (total + g))
  | [] => total
  end.
Definition gap_size (bi : list iter) (ps : list period) : Z :=
  gap_total bi ps 0 * zlen (str "#EXT-X-GAP" ++ [nl]).

(* bps -> kbps, 1593 and 1875 *)
Definition kbps (bitrate : Z) : Z := if bitrate >? 1000 then bitrate / 1000 else 1.

(* the state of the loops of ngx_http_pckg_m3u8_period_get_bitrate_count *)
Record bst := {
  b_index : Z; b_time : Z; b_start : Z; b_last : Z; b_bi : list iter;
  b_gaps : Z; b_rates : Z
}.

(* the body of the inner loop, 1579-1605 *)
Definition count_step (ms : Z) (es : list est) (duration : Z) (s : bst) : bst :=
  let time := b_time s + duration in
  let end_ := time / ms in
  let '(bi, rate) := segment_info_get (b_bi s) es (b_index s) (u32 (end_ - b_start s)) in
  if rate =? 0
  then {| b_index := b_index s + 1; b_time := time; b_start := end_; b_last := b_last s;
          b_bi := bi; b_gaps := b_gaps s + 1; b_rates := b_rates s |}
  else if negb (kbps rate =? NO_BITRATE) && negb (kbps rate =? b_last s)
  then {| b_index := b_index s + 1; b_time := time; b_start := end_; b_last := kbps rate;
          b_bi := bi; b_gaps := b_gaps s; b_rates := b_rates s + 1 |}
  else {| b_index := b_index s + 1; b_time := time; b_start := end_; b_last := b_last s;
          b_bi := bi; b_gaps := b_gaps s; b_rates := b_rates s |}.

Fixpoint times {A} (n : nat) (f : A -> A) (s : A) : A :=
  match n with O => s | S n' => times n' f (f s) end.

(* ngx_http_pckg_m3u8_period_get_bitrate_count, 1554-1608.  The segment
   index does not wrap: ngx_pckg_ksmp_read_period (ngx_pckg_ksmp.c:341-346)
   has checked it *)
Definition period_count (ms : Z) (es : list est) (p : period) (bi : list iter)
    (gaps rates : Z) : bst :=
  fold_left (fun s e => times (Z.to_nat (fst e)) (count_step ms es (snd e)) s) (p_elts p)
    {| b_index := p_index p; b_time := p_time p; b_start := p_time p / ms; b_last := 0;
       b_bi := bi; b_gaps := gaps; b_rates := rates |}.

(* the loop of ngx_http_pckg_m3u8_get_bitrate_size, 1634-1652 *)
Fixpoint bitrate_loop (f : conf) (ms : Z) (mi : list (list Z)) (bi : list iter)
    (ps : list period) (gaps rates : Z) : Z * Z :=
  match ps with
  | p :: r =>
      let '(mi', infos, _) := media_info_get mi (p_index p) in
      let s := period_count ms (f_est f infos) p bi gaps rates in
      bitrate_loop f ms mi' (b_bi s) r (b_gaps s) (b_rates s)
  | [] => (gaps, rates)
  end.

(* ngx_http_pckg_m3u8_get_bitrate_size, 1612-1656 *)
Definition bitrate_size (f : conf) (c : channel) (mi : list (list Z)) (bi : list iter) : Z :=
  let '(gaps, rates) := bitrate_loop f (c_timescale c / 1000) mi bi (c_periods c) 0 0 in
  rates * (zlen (str "#EXT-X-BITRATE:") + 1 + INT32_LEN)
  + gaps * zlen (str "#EXT-X-GAP" ++ [nl]).

(* ngx_http_pckg_m3u8_append_extinf_tag, 1660-1667 *)
Definition extinf (duration : Z) : list Z :=
  str "#EXTINF:" ++ secs duration ++ str "," ++ [nl].

(* ngx_http_pckg_m3u8_parts_get_size, 1671-1698; [sfx] is the suffix of
   segment uris, with its newline *)
Definition part_flags_size (part : Z) : Z :=
  if negb (Z.land part PART_INDEPENDENT =? 0) then zlen (str ",INDEPENDENT=YES")
  else if negb (Z.land part PART_GAP =? 0) then zlen (str ",GAP=YES") else 0.
Definition parts_size (sfx : list Z) (durations : list Z) : Z :=
  (zlen (str "#EXT-X-PART:DURATION=%uD.%03uD") + INT32_LEN + zlen (str ".000")
   + zlen (str ",URI=""%V-%uD-%uD") + zlen (str "part")
   + 2 * INT32_LEN + zlen sfx - 1 + 2) * zlen durations
  + fold_right (fun d a => part_flags_size d + a) 0 durations.

(* ngx_http_pckg_m3u8_parts_write, 1702-1752: the loop; [i] is the number
   of parts written so far, [seg] the index of the segment plus one *)
Fixpoint parts_loop (ms : Z) (sfx : list Z) (seg i time start : Z) (durations : list Z)
  : list Z :=
  match durations with
  | [] => []
  | part :: r =>
      let uri := str ",URI=""" ++ str "part" ++ str "-" ++ dec seg ++ str "-" ++ dec (i + 1)
                 ++ removelast sfx ++ [quote] ++ [nl] in
      if part =? PRELOAD_HINT
      then str "#EXT-X-PRELOAD-HINT:TYPE=PART" ++ uri ++ parts_loop ms sfx seg (i + 1) time start r
      else
        let time' := time + Z.land part PART_MASK in
        let end_ := time' / ms in
        str "#EXT-X-PART:DURATION=" ++ secs (u32 (end_ - start))
        ++ (if negb (Z.land part PART_INDEPENDENT =? 0) then str ",INDEPENDENT=YES"
            else if negb (Z.land part PART_GAP =? 0) then str ",GAP=YES" else [])
        ++ uri ++ parts_loop ms sfx seg (i + 1) time' end_ r
  end.
Definition parts_write (ms : Z) (sfx : list Z) (time : Z) (ps : Z * list Z) : list Z :=
  parts_loop ms sfx (u32 (fst ps + 1)) 0 time (time / ms) (snd ps).

(* ngx_http_pckg_m3u8_track_parts_get_size, 1756-1775 *)
Definition track_parts_size (sfx : list Z) (ts : list track) : Z :=
  match ts with
  | [t] => fold_right (fun ps a => parts_size sfx (snd ps) + a) 0 (t_parts t)
  | _ => 0
  end.

(* the state of the loops of ngx_http_pckg_m3u8_write_period_segments *)
Record wst := {
  w_out : list Z; w_index : Z; w_time : Z; w_start : Z; w_last : Z;
  w_parts : list (Z * list Z);      (* track->parts_cur .. parts_end *)
  w_bi : list iter
}.

(* part_segment_index, 1801-1823 and 1853-1855 *)
Definition part_index (ps : list (Z * list Z)) : Z :=
  match ps with [] => INVALID_INDEX | p :: _ => fst p end.

(* the loop that skips the parts before the period, 1805-1818 *)
Fixpoint skip_parts (index : Z) (ps : list (Z * list Z)) : list (Z * list Z) :=
  match ps with
  | p :: r => if fst p >=? index then ps else skip_parts index r
  | [] => []
  end.

(* the body of the inner loop, 1846-1894 *)
Definition seg_step (ms : Z) (sfx : list Z) (es : list est) (duration : Z) (s : wst) : wst :=
  let here := w_index s =? part_index (w_parts s) in
  let parts := if here then match w_parts s with p :: _ => parts_write ms sfx (w_time s) p | [] => [] end
               else [] in
  let left := if here then tl (w_parts s) else w_parts s in
  let time := w_time s + duration in
  let end_ := time / ms in
  let d := u32 (end_ - w_start s) in
  let '(bi, rate) := segment_info_get (w_bi s) es (w_index s) d in
  let tagged := negb (rate =? 0) && negb (kbps rate =? NO_BITRATE)
                && negb (kbps rate =? w_last s) in
  {| w_out := w_out s ++ parts ++ extinf d
       ++ (if rate =? 0 then str "#EXT-X-GAP" ++ [nl]
           else if tagged then str "#EXT-X-BITRATE:" ++ dec (kbps rate) ++ [nl] else [])
       ++ str "seg" ++ str "-" ++ dec (w_index s + 1) ++ sfx;
     w_index := w_index s + 1; w_time := time; w_start := end_;
     w_last := if tagged then kbps rate else w_last s;
     w_parts := left; w_bi := bi |}.

(* the elements that are not pending, 1830-1837 *)
Definition is_pending (p : period) : bool :=
  match rev (p_elts p) with e :: _ => snd e =? PENDING | [] => false end.
Definition done_elts (p : period) : list (Z * Z) :=
  if is_pending p then removelast (p_elts p) else p_elts p.

(* ngx_http_pckg_m3u8_write_period_segments, 1779-1908: the text, the parts
   left and the segment info iterators *)
Definition period_segments (ms : Z) (sfx : list Z) (es : list est) (single : bool)
    (p : period) (parts : list (Z * list Z)) (bi : list iter)
  : list Z * list (Z * list Z) * list iter :=
  let parts0 := if single then skip_parts (p_index p) parts else [] in
  let s := fold_left (fun s e => times (Z.to_nat (fst e)) (seg_step ms sfx es (snd e)) s)
             (done_elts p)
             {| w_out := []; w_index := p_index p; w_time := p_time p;
                w_start := p_time p / ms; w_last := 0; w_parts := parts0; w_bi := bi |} in
  if is_pending p && (w_index s =? part_index (w_parts s))
  then (w_out s ++ match w_parts s with x :: _ => parts_write ms sfx (w_time s) x | [] => [] end,
        tl (w_parts s), w_bi s)
  else (w_out s, w_parts s, w_bi s).

(* ngx_http_pckg_m3u8_server_control_get_size, 1939-1946 *)
Definition server_control_size : Z :=
  zlen (str "#EXT-X-SERVER-CONTROL:") + zlen (str "CAN-BLOCK-RELOAD=YES")
  + zlen (str "CAN-SKIP-UNTIL=%uD.%03uD") + 2 * INT32_LEN
  + zlen (str "PART-HOLD-BACK=%uD.%03uD") + 2 * INT32_LEN + 3.

(* ngx_http_pckg_m3u8_server_control_write, 1950-2045 *)
Definition server_control (f : conf) (c : channel) (target : Z) : list Z :=
  let block := f_one_media f && negb (h_end_list (c_header c)) && f_block_reload f in
  let hold := if f_one_media f && f_parts f && negb (c_part_duration c =? 0)
              then f_hold_back_percent f else 0 in
  let skip := f_skip_percent f in
  if negb block && (skip =? 0) && (hold =? 0) then []
  else
    str "#EXT-X-SERVER-CONTROL:"
    ++ (if block then str "CAN-BLOCK-RELOAD=YES" else [])
    ++ (if skip =? 0 then []
        else (if block then str "," else []) ++ str "CAN-SKIP-UNTIL=" ++
             let v := u64 (target * skip * 10) in
             dec (v / 1000) ++ str "." ++ dec3 (v mod 1000))
    ++ (if hold =? 0 then []
        else (if block || negb (skip =? 0) then str "," else []) ++ str "PART-HOLD-BACK=" ++
             let v := u64 (c_part_duration c * hold * 10) / c_timescale c in
             dec (v / 1000) ++ str "." ++ dec3 (v mod 1000))
    ++ [nl].

(* ngx_http_pckg_m3u8_redition_reports_get_size, 2049-2074 *)
Definition reports_size (c : channel) : Z :=
  fold_right (fun rr a =>
    (zlen (str "#EXT-X-RENDITION-REPORT:URI=""") + zlen (str "index")
     + sep_selector_size (fst rr) + zlen (str ".m3u8")
     + zlen (str ",LAST-MSN=%uD") + INT32_LEN + zlen (str ",LAST-PART=%uD") + INT32_LEN + 2)
    * zlen (snd rr) + a) 0 (c_reports c).

(* ngx_http_pckg_m3u8_redition_reports_write, 2078-2115 *)
Definition report_text (c : channel) (id : list Z) (r : report) : list Z :=
  str "#EXT-X-RENDITION-REPORT:URI=""" ++ str "index"
  ++ sep_selector id (Z.shiftl 1 (r_type r)) ++ str ".m3u8" ++ [quote]
  ++ (if r_last_sequence r =? c_rr_last_sequence c then []
      else str ",LAST-MSN=" ++ dec (r_last_sequence r))
  ++ (if r_last_part r =? c_rr_last_part c then []
      else str ",LAST-PART=" ++ dec (r_last_part r))
  ++ [nl].
Definition reports_text (c : channel) : list Z :=
  flat_map (fun rr => flat_map (report_text c (fst rr)) (snd rr)) (c_reports c).

(* M3U8_PROGRAM_DATE_TIME_LEN, 81-82 *)
Definition pdt_len : Z := zlen (str "#EXT-X-PROGRAM-DATE-TIME:2000-01-01T00:00:00.000+00:00") + 1.

(* the selector and the suffix of segment uris, 1912-1935 and 2171-2182 *)
Definition selector (c : channel) : list Z := sep_selector (c_variant c) (c_media_types c).
Definition seg_suffix (f : conf) (c : channel) : list Z := selector c ++ f_seg_ext f ++ [nl].

Definition last_period (c : channel) : period :=
  last (c_periods c) {| p_time := 0; p_index := 0; p_elts := [] |}.

(* timeline->segment_count, ngx_pckg_ksmp.c:361 *)
Definition segment_count (c : channel) : Z :=
  fold_right (fun p a => p_count p + a) 0 (c_periods c).

(* the size of the buffer of ngx_http_pckg_m3u8_index_build, 2205-2259 *)
Definition index_size (f : conf) (c : channel) : Z :=
  let isz := print_len (p_index (last_period c) + p_count (last_period c)) in
  let seg_sz := zlen (str "#EXTINF:") + INT32_LEN + zlen (str ".000," ++ [nl])
                + zlen (str "seg") + zlen (str "-") + isz + zlen (seg_suffix f c) in
  let per_sz := zlen (str "#EXT-X-DISCONTINUITY" ++ [nl])
                + (if f_pdt f then pdt_len else 0)
                + match f_init_ext f with
                  | Some x => zlen (str "#EXT-X-MAP:URI=""") + 3 + zlen (str "init") + isz
                              + zlen (selector c) + zlen x
                  | None => 0
                  end in
  let bi := map iter_reset (c_tracks c) in
  let mi := map t_minfo (c_tracks c) in
  zlen (str "#EXTM3U" ++ [nl] ++ str "#EXT-X-TARGETDURATION:%uD" ++ [nl]
        ++ str "#EXT-X-VERSION:%uD" ++ [nl] ++ str "#EXT-X-MEDIA-SEQUENCE:%uD" ++ [nl]
        ++ str "#EXT-X-DISCONTINUITY-SEQUENCE:%uD" ++ [nl] ++ str "#EXT-X-INDEPENDENT-SEGMENTS" ++ [nl]
        ++ str "#EXT-X-ALLOW-CACHE:YES" ++ [nl]) + 1 + 4 * INT32_LEN
  + server_control_size
  + (zlen (str "#EXT-X-PART-INF:PART-TARGET=%uD.%03uD" ++ [nl]) + 2 * INT32_LEN)
  + (zlen (str "#EXT-X-SKIP:SKIPPED-SEGMENTS=%uD" ++ [nl]) + INT32_LEN)
  + per_sz * zlen (c_periods c)
  + seg_sz * segment_count c
  + track_parts_size (seg_suffix f c) (c_tracks c)
  + reports_size c
  + zlen (str "#EXT-X-ENDLIST" ++ [nl])
  + key_size (str "#EXT-X-KEY:") (c_variant c) (f_key f)
  + (if has_bitrate bi then bitrate_size f c mi bi else gap_size bi (c_periods c)).

(* the version, 2282-2297 *)
Definition version (f : conf) (c : channel) : Z :=
  if h_skipped_segments (c_header c) >? 0 then 9
  else match f_init_ext f with
       | Some _ => 6
       | None => if (f_scheme f =? 2) || (f_scheme f =? 3) || negb (f_format_len f =? 0)
                 then 5 else 3
       end.

(* target_duration, 2280 *)
Definition target_duration (c : channel) : Z :=
  u32 (h_target_duration (c_header c) + c_timescale c / 2) / c_timescale c.

(* the first lines, 2299-2300 *)
Definition header_text (f : conf) (c : channel) : list Z :=
  let h := c_header c in
  str "#EXTM3U" ++ [nl] ++ str "#EXT-X-TARGETDURATION:" ++ dec (target_duration c) ++ [nl]
  ++ str "#EXT-X-VERSION:" ++ dec (version f c) ++ [nl]
  ++ str "#EXT-X-MEDIA-SEQUENCE:" ++ dec (h_sequence h) ++ [nl]
  ++ str "#EXT-X-DISCONTINUITY-SEQUENCE:"
  ++ dec (u32 (h_first_period_index h - h_skipped_periods h)) ++ [nl]
  ++ str "#EXT-X-INDEPENDENT-SEGMENTS" ++ [nl] ++ str "#EXT-X-ALLOW-CACHE:YES" ++ [nl].

(* rescale_time, media/media_format.h:9 *)
Definition rescale (time cur new_ : Z) : Z := u64 (u64 (time * new_) + cur / 2) / cur.

(* EXT-X-PART-INF, 2305-2312 *)
Definition part_inf (f : conf) (c : channel) : list Z :=
  if (c_part_duration c >? 0) && f_parts f && f_one_media f
  then str "#EXT-X-PART-INF:PART-TARGET="
       ++ secs (u32 (rescale (c_part_duration c) (c_timescale c) 1000)) ++ [nl]
  else [].

(* the lines before the segments of a period, 2342-2374; [first] is i == 0 *)
Definition writes_disc (c : channel) (first : bool) (p : period) : bool :=
  negb first || ((h_skipped_segments (c_header c) >? 0)
                 && (p_index p =? h_first_initial_index (c_header c))).
Definition writes_map (c : channel) (first : bool) (p : period) : bool :=
  negb first || (h_skipped_segments (c_header c) <=? 0)
  || (p_index p =? h_first_initial_index (c_header c)).
Definition map_text (x : list Z) (c : channel) (map_index : Z) : list Z :=
  str "#EXT-X-MAP:URI=""" ++ str "init" ++ str "-" ++ dec (map_index + 1)
  ++ selector c ++ x ++ [quote] ++ [nl].
Definition pdt_text (f : conf) (c : channel) (p : period) : list Z :=
  str "#EXT-X-PROGRAM-DATE-TIME:" ++ f_date f (p_time p / c_timescale c) ++ str "."
  ++ dec3 ((p_time p / (c_timescale c / 1000)) mod 1000) ++ str "+00:00" ++ [nl].

(* the loop over the periods, 2330-2379 *)
Fixpoint periods_text (f : conf) (c : channel) (first : bool) (last_map : Z)
    (mi : list (list Z)) (bi : list iter) (parts : list (Z * list Z)) (ps : list period)
  : list Z :=
  match ps with
  | [] => []
  | p :: r =>
      let '(mi', infos, map_index) := media_info_get mi (p_index p) in
      let es := f_est f infos in
      let '(segs, parts', bi') :=
        period_segments (c_timescale c / 1000) (seg_suffix f c) es
          (Nat.eqb (length (c_tracks c)) 1) p parts bi in
      let changed := match f_init_ext f with
                     | Some _ => negb (map_index =? last_map) | None => false end in
      (if writes_disc c first p then str "#EXT-X-DISCONTINUITY" ++ [nl] else [])
      ++ (if changed && writes_map c first p
          then match f_init_ext f with Some x => map_text x c map_index | None => [] end else [])
      ++ (if f_pdt f then pdt_text f c p else [])
      ++ segs
      ++ periods_text f c false (if changed then map_index else last_map) mi' bi' parts' r
  end.

(* the parts of the first track *)
Definition track_parts (c : channel) : list (Z * list Z) :=
  match c_tracks c with t :: _ => t_parts t | [] => [] end.

(* ngx_http_pckg_m3u8_index_build, 2119-2397: the text, before the check of
   its length *)
Definition index_text (f : conf) (c : channel) : list Z :=
  let h := c_header c in
  let skipped := h_skipped_segments h >? 0 in
  let mi := map t_minfo (c_tracks c) in
  let '(mi0, _, last_map) :=
    if skipped then media_info_get mi (h_last_skipped_index h) else (mi, [], INVALID_INDEX) in
  header_text f c
  ++ server_control f c (target_duration c)
  ++ part_inf f c
  ++ (if skipped
      then str "#EXT-X-SKIP:SKIPPED-SEGMENTS=" ++ dec (h_skipped_segments h) ++ [nl] else [])
  ++ key_text (str "#EXT-X-KEY:") (c_variant c)
       (match c_tracks c with t :: _ => t_type t | [] => 0 end) (f_key f)
  ++ periods_text f c true last_map mi0 (map iter_reset (c_tracks c)) (track_parts c) (c_periods c)
  ++ reports_text c
  ++ (if h_end_list h then str "#EXT-X-ENDLIST" ++ [nl] else []).

(* the result of ngx_http_pckg_m3u8_index_build: [None] is the error 500 of
   2388-2394, when the text is longer than the buffer that was allocated; by
   then it has been written beyond its end *)
Definition index_build (f : conf) (c : channel) : option (list Z) :=
  if zlen (index_text f c) >? index_size f c then None else Some (index_text f c).
