(* Model of how the packager understands the name of a file that a player
   asks for, of the request it then sends to the live server, and of how the
   live server understands that request:
   nginx-pckg-module/src/ngx_http_pckg_utils.c and ngx_http_pckg_core_module.c
   (file names), the parsers of ngx_http_pckg_m3u8.c, ngx_http_pckg_fmp4.c,
   ngx_http_pckg_mpegts.c, ngx_http_pckg_webvtt.c and ngx_http_pckg_enc.c,
   ngx_pckg_ksmp.c (the request), nginx-common/src/ngx_http_api.c (query
   strings) and nginx-live-module/src/http/ngx_http_live_ksmp_module.c.

   A text between two pointers is a list of byte values.  Not modelled: the
   .mpd and .jpg parsers, the logs, failed allocations.  The functions of the
   nginx core that are used (ngx_escape_uri, ngx_unescape_uri, ngx_atoi,
   ngx_hextoi, ngx_sprintf) are not in the repository and are modelled after
   the nginx sources. *)
From Coq Require Import String Ascii ZArith List Bool.
From Verif Require Import Bytes M3u8Model.
Import ListNotations.
Open Scope Z_scope.

(* [Bad] is an error response; [Over] is a read past the end of the name *)
Inductive out (A : Type) := Ok (a : A) | Bad | Over.
Arguments Ok {A} _.
Arguments Bad {A}.
Arguments Over {A}.

Definition bind {A B} (x : out A) (f : A -> out B) : out B :=
  match x with Ok a => f a | Bad => Bad | Over => Over end.

Definition eqs (a b : list Z) : bool := if list_eq_dec Z.eq_dec a b then true else false.

(* flags & bit *)
Definition has (flags bit : Z) : bool := negb (Z.land flags bit =? 0).

(* ngx_http_pckg_utils.h:16-21 *)
Definition REQUIRE_INDEX : Z := 1.
Definition REQUIRE_PART_INDEX : Z := 2.
Definition REQUIRE_SINGLE_VARIANT : Z := 4.
Definition OPTIONAL_SINGLE_VARIANT : Z := 8.
Definition OPTIONAL_VARIANTS : Z := 16.
Definition OPTIONAL_MEDIA_TYPE : Z := 32.

(* ngx_ksmp.h:69-71 *)
Definition INVALID_TIME : Z := 2 ^ 63 - 1.

(* the part of ngx_pckg_ksmp_req_t that a file name sets *)
Record name := {
  n_seg : Z; n_part : Z;
  n_ids : option (list Z);       (* variant_ids; None is a null pointer *)
  n_mask : Z; n_count : Z
}.

(* ngx_http_pckg_parse_uint32, ngx_http_pckg_utils.c:203-219 *)
Fixpoint parse_uint32 (value : Z) (l : list Z) : Z * list Z :=
  match l with
  | c :: r => if (48 <=? c) && (c <=? 57) then parse_uint32 (u32 (value * 10 + c - 48)) r
              else (value, l)
  | [] => (value, [])
  end.

(* ngx_http_pckg_extract_string, 221-235: the text up to a dash, the rest *)
Fixpoint extract (l : list Z) : list Z * list Z :=
  match l with
  | c :: r => if c =? 45 then ([], l) else let '(a, b) := extract r in (c :: a, b)
  | [] => ([], [])
  end.

(* expect_char, 237-244 *)
Definition expect (ch : Z) (l : list Z) : out (list Z) :=
  match l with c :: r => if c =? ch then Ok r else Bad | [] => Bad end.

(* the loop over "-s", 307-352; [l] starts at the s; the result is the joined
   ids and the rest after the dash, None when the name ended.  [fuel] bounds
   the number of ids *)
Fixpoint variants (fuel : nat) (ids : list Z) (l : list Z) : out (list Z * option (list Z)) :=
  match fuel with
  | O => Over
  | S f =>
      let ids1 := match ids with [] => [] | _ => ids ++ [45] end in
      let '(cur, r) := extract (tl l) in
      let ids2 := ids1 ++ cur in
      match r with
      | [] => Ok (ids2, None)
      | c :: r1 =>
          if negb (c =? 45) || (zlen r <? 2) then Bad
          else match r1 with
               | [] => Over
               | d :: _ => if d =? 115 then variants f ids2 r1 else Ok (ids2, Some r1)
               end
      end
  end.

(* the media type of a letter, 377-395 *)
Definition type_flag (c : Z) : option Z :=
  if c =? 118 then Some 1 else if c =? 97 then Some 2 else if c =? 116 then Some 4 else None.

(* the loop over the media types, 375-423: mask, count; what follows the loop
   is an error in every case, so a dash is one *)
Fixpoint types (allowed mask count : Z) (l : list Z) : out (Z * Z) :=
  match l with
  | [] => Over
  | c :: r =>
      if c =? 45 then Bad
      else match type_flag c with
           | None => Bad
           | Some f =>
               if Z.land allowed f =? 0 then Bad
               else if negb (Z.land mask f =? 0) then Bad
               else match r with
                    | [] => Ok (Z.lor mask f, count + 1)
                    | _ => types allowed (Z.lor mask f) (count + 1) r
                    end
           end
  end.

(* a number that counts from one, 256-268 and 271-283 *)
Definition parse_index (l : list Z) : out (Z * list Z) :=
  bind (expect 45 l) (fun l1 =>
  let '(v, r) := parse_uint32 0 l1 in
  if v <=? 0 then Bad else Ok (v - 1, r)).

(* the media types, 364-434; [l] is not empty *)
Definition parse_types (flags : Z) (n : name) (l : list Z) : out name :=
  match l with
  | [] => Over
  | c :: _ =>
      if ((c =? 118) || (c =? 97) || (c =? 116)) && has flags OPTIONAL_MEDIA_TYPE
      then bind (types (n_mask n) 0 0 l) (fun mc =>
           Ok {| n_seg := n_seg n; n_part := n_part n; n_ids := n_ids n;
                 n_mask := fst mc; n_count := snd mc |})
      else Bad
  end.

Definition set_seg (v : Z) (n : name) : name :=
  {| n_seg := v; n_part := n_part n; n_ids := n_ids n; n_mask := n_mask n; n_count := n_count n |}.
Definition set_part (v : Z) (n : name) : name :=
  {| n_seg := n_seg n; n_part := v; n_ids := n_ids n; n_mask := n_mask n; n_count := n_count n |}.
Definition set_ids (v : list Z) (n : name) : name :=
  {| n_seg := n_seg n; n_part := n_part n; n_ids := Some v; n_mask := n_mask n; n_count := n_count n |}.

(* the optional parameters, 293-434 *)
Definition parse_options (flags : Z) (n : name) (l : list Z) : out name :=
  match l with
  | [] => Ok n
  | c :: l1 =>
      if negb (c =? 45) || (zlen l <? 2) then Bad
      else match l1 with
           | [] => Over
           | d :: _ =>
               if (d =? 115) && has flags (Z.lor OPTIONAL_VARIANTS OPTIONAL_SINGLE_VARIANT)
               then bind (variants (length l1) [] l1) (fun v =>
                    match snd v with
                    | None => Ok (set_ids (fst v) n)
                    | Some l2 =>
                        if has flags OPTIONAL_SINGLE_VARIANT && existsb (fun x => x =? 45) (fst v)
                        then Bad
                        else parse_types flags (set_ids (fst v) n) l2
                    end)
               else parse_types flags n l1
           end
  end.

(* ngx_http_pckg_parse_uri_file_name, 246-434 *)
Definition parse_file_name (flags : Z) (n : name) (l : list Z) : out name :=
  bind (if has flags REQUIRE_INDEX
        then bind (parse_index l) (fun v => Ok (set_seg (fst v) n, snd v)) else Ok (n, l)) (fun s =>
  bind (if has flags REQUIRE_PART_INDEX
        then bind (parse_index (snd s)) (fun v => Ok (set_part (fst v) (fst s), snd v)) else Ok s) (fun s =>
  bind (if has flags REQUIRE_SINGLE_VARIANT
        then bind (expect 45 (snd s)) (fun l1 =>
             bind (expect 115 l1) (fun l2 =>
             let '(id, r) := extract l2 in Ok (set_ids id (fst s), r)))
        else Ok s) (fun s =>
  parse_options flags (fst s) (snd s)))).

(* ----- query strings *)

(* ngx_unescape_uri of nginx with type 0 *)
Definition hex_value (ch : Z) : option Z :=
  if (48 <=? ch) && (ch <=? 57) then Some (ch - 48)
  else let c := Z.lor ch 32 in
       if (97 <=? c) && (c <=? 102) then Some (c - 97 + 10) else None.
Inductive ustate := Usual | Quoted | Second (decoded : Z).
Fixpoint unescape_go (s : ustate) (l : list Z) : list Z :=
  match l with
  | [] => []
  | ch :: r =>
      match s with
      | Usual => if ch =? 37 then unescape_go Quoted r else ch :: unescape_go Usual r
      | Quoted => match hex_value ch with
                  | Some d => unescape_go (Second d) r
                  | None => ch :: unescape_go Usual r
                  end
      | Second d => match hex_value ch with
                    | Some e => (d * 16 + e) mod 256 :: unescape_go Usual r
                    | None => unescape_go Usual r
                    end
      end
  end.
Definition unescape (l : list Z) : list Z := unescape_go Usual l.

Section Args.
  Variable S : Type.
  Variable handler : list Z -> list Z -> S -> option S.

  (* the loop of ngx_http_api_parse_args, ngx_http_api.c:974-1044: [key] is
     key (empty when key.len is 0), [cur] the text from start to p, [un] the
     unescape flag; None is the error of the handler *)
  Fixpoint args_loop (key cur : list Z) (un : bool) (l : list Z) (s : S) : option S :=
    match l with
    | [] => Some s
    | c :: r =>
        if c =? 0 then Some s
        else if c =? 61 then
          match key with
          | [] => args_loop (if un then unescape cur else cur) [] false r s
          | _ => args_loop key (cur ++ [c]) un r s
          end
        else if c =? 38 then
          let v := if un then unescape cur else cur in
          match (match key with [] => handler v [] s | _ => handler key v s end) with
          | Some s' => args_loop [] [] false r s'
          | None => None
          end
        else if c =? 43 then args_loop key (cur ++ [32]) un r s
        else if c =? 37 then args_loop key (cur ++ [c]) true r s
        else args_loop key (cur ++ [c]) un r s
    end.

  (* ngx_http_api_parse_args, 940-1045; the value of an argument without "="
     has length 0 (its pointer is not set) *)
  Definition parse_args (args : list Z) (s : S) : option S :=
    match args with [] => Some s | _ => args_loop [] [] false (args ++ [38; 0]) s end.
End Args.
Arguments args_loop {S}.
Arguments parse_args {S}.

(* ngx_atoi of nginx *)
Definition MAX_INT : Z := 2 ^ 63 - 1.
Fixpoint atoi_loop (value : Z) (l : list Z) : option Z :=
  match l with
  | [] => Some value
  | c :: r =>
      if (c <? 48) || (c >? 57) then None
      else if (value >=? MAX_INT / 10) && ((value >? MAX_INT / 10) || (c - 48 >? MAX_INT mod 10)) then None
      else atoi_loop (value * 10 + (c - 48)) r
  end.
Definition atoi (l : list Z) : option Z := match l with [] => None | _ => atoi_loop 0 l end.

(* ngx_hextoi of nginx *)
Fixpoint hextoi_loop (value : Z) (l : list Z) : option Z :=
  match l with
  | [] => Some value
  | c :: r =>
      if value >? MAX_INT / 16 then None
      else match hex_value c with
           | Some d => hextoi_loop (value * 16 + d) r
           | None => None
           end
  end.
Definition hextoi (l : list Z) : option Z := match l with [] => None | _ => hextoi_loop 0 l end.

(* ----- the file name parsers of the packager *)

(* ngx_ksmp.h:34-60 *)
Definition F_MEDIA : Z := 1.
Definition F_TIMELINE : Z := 2.
Definition F_PERIODS : Z := 4.
Definition F_MEDIA_INFO : Z := 8.
Definition F_RENDITION_REPORTS : Z := 16.
Definition F_SEGMENT_PARTS : Z := 32.
Definition F_SEGMENT_INFO : Z := 64.
Definition F_SEGMENT_TIME : Z := 128.
Definition F_DYNAMIC_VAR : Z := 256.
Definition F_MEDIA_CLIP : Z := 4096 + 8192.
Definition F_TIME_RELATIVE : Z := 65536 + 131072.
Definition F_WAIT : Z := 2 ^ 24.
Definition F_MAX_PENDING : Z := 2 ^ 25.
Definition F_CHECK_EXPIRY : Z := 2 ^ 26.
Definition F_LAST_SEGMENT_ONLY : Z := 2 ^ 29.
Definition F_SKIP_SEGMENTS : Z := 2 ^ 30.

Inductive handler := TsSegment | Mp4Segment | VttSegment | InitSegment | Index | Master | EncKey.

(* what a location configures *)
Record loc := {
  l_base_flags : Z;               (* plcf->base_flags *)
  l_active_policy : Z;            (* plcf->active_policy *)
  l_parts : bool;                 (* mlcf->parts *)
  l_reports : bool;               (* mlcf->rendition_reports *)
  l_skip_percent : Z;             (* mlcf->ctl.skip_boundary_percent, evaluated *)
  l_serve_key : bool              (* elcf->serve_key and a scheme *)
}.

(* what is asked: the handler, the name, flags, skip_boundary_percent *)
Record ask := { a_handler : handler; a_name : name; a_flags : Z; a_skip : Z }.

(* ngx_http_pckg_core_parse, ngx_http_pckg_core_module.c:893-899 *)
Definition name0 (mask count : Z) : name :=
  {| n_seg := INVALID_INDEX; n_part := INVALID_INDEX; n_ids := None; n_mask := mask; n_count := count |}.

(* ngx_http_pckg_match_prefix, ngx_http_pckg_core_module.h:15-17 *)
Fixpoint after (p l : list Z) : option (list Z) :=
  match p, l with
  | [], _ => Some l
  | a :: p', b :: l' => if a =? b then after p' l' else None
  | _ :: _, [] => None
  end.

(* "seg" and "part", ngx_http_pckg_core_module.c:396-397 *)
Definition seg_or_part (l : list Z) : option (Z * list Z) :=
  match after (str "seg") l with
  | Some r => Some (0, r)
  | None => match after (str "part") l with
            | Some r => Some (REQUIRE_PART_INDEX, r)
            | None => None
            end
  end.
Definition seg_flags : Z := REQUIRE_INDEX + REQUIRE_SINGLE_VARIANT + OPTIONAL_MEDIA_TYPE.

(* ngx_http_pckg_fmp4_init_ctx, ngx_http_pckg_fmp4.c:430-463: the name without
   the suffix of the subtitle format (the format is not modelled) *)
Definition drop_suffix (s l : list Z) : option (list Z) :=
  match after (rev s) (rev l) with Some r => Some (rev r) | None => None end.
Definition fmp4_name (l : list Z) : list Z :=
  match drop_suffix (str "-wvtt") l with
  | Some r => r
  | None => match drop_suffix (str "-stpp") l with Some r => r | None => l end
  end.

(* ngx_http_pckg_fmp4_parse_m4s_request, 466-512 *)
Definition parse_m4s (l : list Z) : out ask :=
  match seg_or_part l with
  | None => Bad
  | Some (fl, r) =>
      bind (parse_file_name (fl + seg_flags) (name0 7 3) (fmp4_name r)) (fun n =>
      Ok {| a_handler := Mp4Segment; a_name := n; a_skip := 0;
            a_flags := F_MEDIA + F_MEDIA_INFO
                       + (if has (n_mask n) 4 then F_SEGMENT_TIME else 0) |})
  end.

(* ngx_http_pckg_fmp4_parse_mp4_request, 515-547 *)
Definition parse_mp4 (l : list Z) : out ask :=
  match after (str "init") l with
  | None => Bad
  | Some r =>
      bind (parse_file_name seg_flags (name0 7 3) (fmp4_name r)) (fun n =>
      Ok {| a_handler := InitSegment; a_name := n; a_skip := 0; a_flags := F_MEDIA_INFO |})
  end.

(* ngx_http_pckg_mpegts_parse_ts_request, ngx_http_pckg_mpegts.c:236-274 *)
Definition parse_ts (l : list Z) : out ask :=
  match seg_or_part l with
  | None => Bad
  | Some (fl, r) =>
      bind (parse_file_name (fl + seg_flags) (name0 3 2) r) (fun n =>
      Ok {| a_handler := TsSegment; a_name := n; a_skip := 0; a_flags := F_MEDIA + F_MEDIA_INFO |})
  end.

(* ngx_http_pckg_webvtt_parse_request, ngx_http_pckg_webvtt.c:102-138 *)
Definition parse_vtt (l : list Z) : out ask :=
  match seg_or_part l with
  | None => Bad
  | Some (fl, r) =>
      bind (parse_file_name (fl + seg_flags) (name0 4 1) r) (fun n =>
      Ok {| a_handler := VttSegment; a_name := n; a_skip := 0;
            a_flags := F_MEDIA + F_MEDIA_INFO + F_SEGMENT_TIME |})
  end.

(* ngx_http_pckg_parse_key_request, ngx_http_pckg_enc.c:702-731 *)
Definition parse_key (f : loc) (l : list Z) : out ask :=
  match after (str "enc") l with
  | Some r =>
      if l_serve_key f
      then bind (parse_file_name (OPTIONAL_SINGLE_VARIANT + OPTIONAL_MEDIA_TYPE) (name0 3 2) r) (fun n =>
           Ok {| a_handler := EncKey; a_name := n; a_skip := 0; a_flags := 0 |})
      else Bad
  | None => Bad
  end.

(* ngx_http_pckg_m3u8_args_handler, ngx_http_pckg_m3u8.c:2443-2518: on the
   name, the flags and skip_boundary_percent *)
Definition index_arg (f : loc) (key value : list Z) (s : name * Z * Z) : option (name * Z * Z) :=
  let '(n, fl, sk) := s in
  match after (str "_HLS_") key with
  | None | Some [] => Some s
  | Some k =>
      if eqs k (str "skip") then
        if l_skip_percent f =? 0 then Some s
        else if eqs value (str "YES") || eqs value (str "v2")
        then Some (n, Z.lor fl F_SKIP_SEGMENTS, u32 (l_skip_percent f))
        else Some s
      else if eqs k (str "msn") then
        match atoi value with
        | None => None
        | Some v => Some (set_seg (u32 v) n, Z.lor fl F_WAIT, sk)
        end
      else if eqs k (str "part") then
        match atoi value with
        | None => None
        | Some v => Some (set_part (u32 v) n, Z.lor fl F_WAIT, sk)
        end
      else Some s
  end.

(* ngx_http_pckg_m3u8_parse_request, 2521-2612 *)
Definition parse_m3u8 (f : loc) (l args : list Z) : out ask :=
  match after (str "index") l with
  | Some r =>
      match parse_args (index_arg f) args (name0 7 3, 0, 0) with
      | None => Bad
      | Some (n, fl, sk) =>
          if negb (n_part n =? INVALID_INDEX) && (n_seg n =? INVALID_INDEX) then Bad
          else
            let fl1 := Z.lor fl (Z.lor (l_active_policy f)
                         (F_CHECK_EXPIRY + F_TIMELINE + F_PERIODS + F_MEDIA_INFO + F_SEGMENT_INFO)) in
            bind (parse_file_name (REQUIRE_SINGLE_VARIANT + OPTIONAL_MEDIA_TYPE) n r) (fun n1 =>
            if n_count n1 =? 1
            then Ok {| a_handler := Index; a_name := n1; a_skip := sk;
                       a_flags := Z.lor (Z.lor fl1 (if l_parts f then F_SEGMENT_PARTS else 0))
                                        (if l_reports f then F_RENDITION_REPORTS else 0) |}
            else if has fl1 F_WAIT then Bad
            else Ok {| a_handler := Index; a_name := n1; a_skip := sk; a_flags := fl1 |})
      end
  | None =>
      match after (str "master") l with
      | None => Bad
      | Some r =>
          bind (parse_file_name (OPTIONAL_VARIANTS + OPTIONAL_MEDIA_TYPE) (name0 7 3) r) (fun n =>
          Ok {| a_handler := Master; a_name := n; a_skip := 0;
                a_flags := Z.lor (l_active_policy f)
                             (F_TIMELINE + F_MEDIA_INFO + F_LAST_SEGMENT_ONLY + F_MAX_PENDING) |})
      end
  end.

(* ngx_http_pckg_core_parse, ngx_http_pckg_core_module.c:852-937: [base] is
   the text between the last slash and the dot of the extension, [ext] is
   r->exten; the hash of the extensions is the chain of ifs *)
Definition core_parse (f : loc) (base ext args : list Z) : out ask :=
  bind (if eqs ext (str "m4s") then parse_m4s base
        else if eqs ext (str "mp4") then parse_mp4 base
        else if eqs ext (str "ts") then parse_ts base
        else if eqs ext (str "vtt") then parse_vtt base
        else if eqs ext (str "key") then parse_key f base
        else if eqs ext (str "m3u8") then parse_m3u8 f base args
        else Bad) (fun a =>
  if negb (n_part (a_name a) =? INVALID_INDEX) && negb (n_count (a_name a) =? 1) then Bad
  else Ok {| a_handler := a_handler a; a_name := a_name a; a_skip := a_skip a;
             a_flags := Z.lor (a_flags a) (l_base_flags f) |}).

(* ----- the request to the live server: ngx_pckg_ksmp.c *)

(* ngx_pckg_ksmp_req_t, ngx_pckg_ksmp.h:48-62 (media_type_count and
   parse_flags are not sent) *)
Record kreq := {
  k_channel : list Z; k_timeline : list Z; k_ids : option (list Z);
  k_mask : Z; k_seg : Z; k_max_seg : Z; k_part : Z; k_skip : Z;
  k_time : Z; k_padding : Z; k_flags : Z
}.

(* ngx_http_pckg_core_init_ctx, ngx_http_pckg_core_module.c:765-837: the
   channel, the timeline and max_segment_index come from the configuration *)
Definition request_of (channel timeline : list Z) (max_seg : Z) (a : ask) : kreq :=
  {| k_channel := channel; k_timeline := timeline; k_ids := n_ids (a_name a);
     k_mask := n_mask (a_name a); k_seg := n_seg (a_name a); k_max_seg := max_seg;
     k_part := n_part (a_name a); k_skip := a_skip a; k_time := INVALID_TIME; k_padding := 0;
     k_flags := a_flags a |}.

(* ngx_escape_uri of nginx with NGX_ESCAPE_ARGS: controls, " ", "#", "%", "&",
   "+", ";", "?", and everything from 0x7f up become %XX *)
Definition args_plain (c : Z) : bool :=
  (32 <? c) && (c <? 127)
  && negb ((c =? 35) || (c =? 37) || (c =? 38) || (c =? 43) || (c =? 59) || (c =? 63)).
Definition escape_args (l : list Z) : list Z :=
  flat_map (fun c => if args_plain c then [c] else 37 :: hex_string [c]) l.
Definition escape_args_count (l : list Z) : Z := zlen (filter (fun c => negb (args_plain c)) l).

(* ngx_sprintf "%uxD" *)
Definition lower_hex (n : Z) : Z := if n <? 10 then 48 + n else 87 + n.
Fixpoint hex_f (fuel : nat) (n : Z) : list Z :=
  match fuel with
  | O => []
  | S f => if n <? 16 then [lower_hex n] else hex_f f (n / 16) ++ [lower_hex (n mod 16)]
  end.
Definition hex32 (n : Z) : list Z := hex_f 20 (u32 n).

(* ngx_sprintf "%L" (int64_t) and "%uz" (size_t) *)
Definition dec_int64 (n : Z) : list Z := if n <? 0 then 45 :: dec_f 20 (- n) else dec_f 20 n.
Definition dec_size (n : Z) : list Z := dec_f 20 (u64 n).

(* NGX_INT64_LEN and NGX_SIZE_T_LEN of nginx, NGX_INT32_HEX_LEN of ngx_pckg_ksmp.h:12 *)
Definition INT64_LEN : Z := 20.
Definition SIZE_T_LEN : Z := 20.
Definition INT32_HEX_LEN : Z := 8.

(* ngx_pckg_ksmp_create_request, ngx_pckg_ksmp.c:1782-1837: the size *)
Definition request_size (q : kreq) : Z :=
  zlen (str "channel_id=") + zlen (k_channel q) + 2 * escape_args_count (k_channel q)
  + zlen (str "&timeline_id=") + zlen (k_timeline q) + 2 * escape_args_count (k_timeline q)
  + zlen (str "&flags=") + INT32_HEX_LEN
  + match k_ids q with
    | Some v => zlen (str "&variant_ids=") + zlen v + 2 * escape_args_count v
    | None => 0
    end
  + (if k_time q =? INVALID_TIME then 0 else zlen (str "&time=") + INT64_LEN)
  + (if k_seg q =? INVALID_INDEX then 0 else zlen (str "&segment_index=") + INT32_LEN)
  + (if k_max_seg q =? INVALID_INDEX then 0 else zlen (str "&max_segment_index=") + INT32_LEN)
  + (if k_part q =? INVALID_INDEX then 0 else zlen (str "&part_index=") + INT32_LEN)
  + (if k_skip q >? 0 then zlen (str "&skip_boundary_percent=") + INT32_LEN else 0)
  + (if Z.land (k_mask q) 7 =? 7 then 0 else zlen (str "&media_type_mask=") + INT32_HEX_LEN)
  + (if k_padding q =? 0 then 0 else zlen (str "&padding=") + SIZE_T_LEN).

(* 1839-1925: the text; a mask of 7 was set to 0 *)
Definition request_text (q : kreq) : list Z :=
  str "channel_id=" ++ escape_args (k_channel q)
  ++ str "&timeline_id=" ++ escape_args (k_timeline q)
  ++ str "&flags=" ++ hex32 (k_flags q)
  ++ match k_ids q with Some v => str "&variant_ids=" ++ escape_args v | None => [] end
  ++ (if k_time q =? INVALID_TIME then [] else str "&time=" ++ dec_int64 (k_time q))
  ++ (if k_seg q =? INVALID_INDEX then [] else str "&segment_index=" ++ dec (k_seg q))
  ++ (if k_max_seg q =? INVALID_INDEX then [] else str "&max_segment_index=" ++ dec (k_max_seg q))
  ++ (if k_part q =? INVALID_INDEX then [] else str "&part_index=" ++ dec (k_part q))
  ++ (if k_skip q >? 0 then str "&skip_boundary_percent=" ++ dec (k_skip q) else [])
  ++ (let m := if Z.land (k_mask q) 7 =? 7 then 0 else Z.land (k_mask q) 7 in
      if m =? 0 then [] else str "&media_type_mask=" ++ hex32 m)
  ++ (if k_padding q =? 0 then [] else str "&padding=" ++ dec_size (k_padding q)).

(* 1839-1928: None is an overrun of the buffer, found after the fact *)
Definition create_request (q : kreq) : option (list Z) :=
  if zlen (request_text q) >? request_size q then None else Some (request_text q).

(* ----- the live server: ngx_http_live_ksmp_module.c *)

(* ngx_http_live_ksmp_params_t, 44-65; an absent id is a null pointer *)
Record params := {
  p_channel : option (list Z); p_timeline : option (list Z); p_ids : option (list Z);
  p_mask : Z; p_time_arg : Z; p_seg : Z; p_max_seg : Z; p_part : Z; p_skip : Z;
  p_padding : Z; p_flags : Z; p_wait_sequence : Z; p_wait_part : Z
}.

(* ngx_http_live_ksmp_parse, 358-364; the context was zeroed *)
Definition params0 : params :=
  {| p_channel := None; p_timeline := None; p_ids := None; p_mask := 7; p_time_arg := INVALID_TIME;
     p_seg := INVALID_INDEX; p_max_seg := INVALID_INDEX; p_part := INVALID_INDEX; p_skip := 0;
     p_padding := 0; p_flags := 0; p_wait_sequence := 0; p_wait_part := 0 |}.

(* ngx_http_live_ksmp_args_handler, 171-345; NGX_KSMP_MIN_PADDING is the size
   of a block header, NGX_KSMP_MAX_PADDING is 128 *)
Definition MIN_PADDING : Z := 12.
Definition MAX_PADDING : Z := 128.
Definition live_arg (key value : list Z) (p : params) : option params :=
  let upd ch tl ids mask tm sg mx pt sk pd fl :=
    Some {| p_channel := ch; p_timeline := tl; p_ids := ids; p_mask := mask; p_time_arg := tm;
            p_seg := sg; p_max_seg := mx; p_part := pt; p_skip := sk; p_padding := pd; p_flags := fl;
            p_wait_sequence := p_wait_sequence p; p_wait_part := p_wait_part p |} in
  let '(ch, tl, ids, mask, tm, sg, mx, pt, sk, pd, fl) :=
    (p_channel p, p_timeline p, p_ids p, p_mask p, p_time_arg p, p_seg p, p_max_seg p, p_part p,
     p_skip p, p_padding p, p_flags p) in
  if eqs key (str "channel_id") then upd (Some value) tl ids mask tm sg mx pt sk pd fl
  else if eqs key (str "timeline_id") then upd ch (Some value) ids mask tm sg mx pt sk pd fl
  else if eqs key (str "variant_ids") then upd ch tl (Some value) mask tm sg mx pt sk pd fl
  else if eqs key (str "media_type_mask") then
    match hextoi value with
    | None => None
    | Some v => let m := Z.land mask v in
                if m =? 0 then None else upd ch tl ids m tm sg mx pt sk pd fl
    end
  else if eqs key (str "time") then
    match atoi value with
    | None => None
    | Some v => if v >=? INVALID_TIME then None else upd ch tl ids mask v sg mx pt sk pd fl
    end
  else if eqs key (str "segment_index") then
    match atoi value with
    | None => None
    | Some v => if v >=? INVALID_INDEX then None else upd ch tl ids mask tm v mx pt sk pd fl
    end
  else if eqs key (str "max_segment_index") then
    match atoi value with
    | None => None
    | Some v => upd ch tl ids mask tm sg (u32 v) pt sk pd fl
    end
  else if eqs key (str "part_index") then
    match atoi value with
    | None => None
    | Some v => if v >=? INVALID_INDEX then None else upd ch tl ids mask tm sg mx v sk pd fl
    end
  else if eqs key (str "skip_boundary_percent") then
    match atoi value with
    | None => None
    | Some v => upd ch tl ids mask tm sg mx pt (u32 v) pd fl
    end
  else if eqs key (str "padding") then
    match atoi value with
    | None => None
    | Some v => if v =? 0 then Some p
                else if (v <? MIN_PADDING) || (v >? MAX_PADDING) then None
                else upd ch tl ids mask tm sg mx pt sk v fl
    end
  else if eqs key (str "flags") then
    match hextoi value with
    | None => None
    | Some v => upd ch tl ids mask tm sg mx pt sk pd (u32 v)
    end
  else Some p.

(* ngx_http_live_ksmp_parse, 366-446 *)
Definition live_parse (args : list Z) : option params :=
  match parse_args live_arg args params0 with
  | None => None
  | Some p =>
      if p_flags p =? 0 then None
      else if match p_channel p with None => true | _ => false end then None
      else if match p_timeline p with None => true | _ => false end then None
      else if Z.land (p_flags p) F_TIME_RELATIVE =? F_TIME_RELATIVE then None
      else if negb (p_seg p =? INVALID_INDEX) then
        if negb (p_time_arg p =? INVALID_TIME) then None
        else if has (p_flags p) F_MEDIA_CLIP then None
        else if has (p_flags p) F_WAIT then
          Some {| p_channel := p_channel p; p_timeline := p_timeline p; p_ids := p_ids p;
                  p_mask := p_mask p; p_time_arg := p_time_arg p; p_seg := INVALID_INDEX;
                  p_max_seg := p_max_seg p; p_part := INVALID_INDEX; p_skip := p_skip p;
                  p_padding := p_padding p; p_flags := p_flags p;
                  p_wait_sequence := p_seg p; p_wait_part := p_part p |}
        else Some p
      else if negb (p_part p =? INVALID_INDEX) then None
      else if (p_time_arg p =? INVALID_TIME) && has (p_flags p) (F_MEDIA + F_SEGMENT_TIME) then None
      else if has (p_flags p) F_WAIT then None
      else Some p
  end.

(* the ids in ngx_http_live_ksmp_parse_variant_ids, 1466-1525 *)
Fixpoint ids_loop (cur l : list Z) : list (list Z) :=
  match l with
  | [] => [cur]
  | c :: r => if c =? 45 then cur :: ids_loop [] r else ids_loop (cur ++ [c]) r
  end.
(* ngx_http_live_ksmp_variant_ids_count, 1446-1463 *)
Definition ids_count (l : list Z) : Z := 1 + zlen (filter (fun c => c =? 45) l).

(* ngx_live_variant_validate_id, ngx_live_channel.c:550-577, without the length *)
Definition id_valid (l : list Z) : bool := forallb (fun c => negb ((c =? 47) || (c =? 45))) l.

(* ----- range requests *)

Definition MAX_OFF : Z := 2 ^ 63 - 1.

Fixpoint skip_spaces (l : list Z) : list Z :=
  match l with c :: r => if c =? 32 then skip_spaces r else l | [] => [] end.
(* the two loops over digits of ngx_http_pckg_range_parse *)
Fixpoint off_loop (v : Z) (l : list Z) : option (Z * list Z) :=
  match l with
  | c :: r =>
      if (48 <=? c) && (c <=? 57) then
        if (v >=? MAX_OFF / 10) && ((v >? MAX_OFF / 10) || (c - 48 >? MAX_OFF mod 10)) then None
        else off_loop (v * 10 + c - 48) r
      else Some (v, l)
  | [] => Some (v, [])
  end.
Definition digit_first (l : list Z) : bool :=
  match l with c :: _ => (48 <=? c) && (c <=? 57) | [] => false end.
Definition lower (c : Z) : Z := if (65 <=? c) && (c <=? 90) then Z.lor c 32 else c.

(* ngx_http_pckg_range_parse, ngx_http_pckg_utils.c:466-560, on the text of
   the header, which ends with a NUL byte that is not in the list; start, end *)
Definition range_found (start end_ : Z) : option (Z * Z) :=
  if start >=? end_ then None else Some (start, end_).
Definition range_last (suffix : bool) (start len : Z) (l : list Z) : option (Z * Z) :=
  if negb (digit_first l) then None
  else match off_loop 0 l with
       | None => None
       | Some (e, r) =>
           match skip_spaces r with
           | _ :: _ => None
           | [] =>
               let start1 := if suffix then len - e else start in
               let e1 := if suffix then len - 1 else e in
               range_found start1 (if e1 >=? len then len else e1 + 1)
           end
       end.
Definition range_parse (text : list Z) (len : Z) : option (Z * Z) :=
  if zlen text <? 7 then None
  else match after (str "bytes=") (map lower (firstn 6 text)) with
       | None => None
       | Some _ =>
           let p := skip_spaces (skipn 6 text) in
           match p with
           | 45 :: r => range_last true 0 len r
           | _ =>
               if negb (digit_first p) then None
               else match off_loop 0 p with
                    | None => None
                    | Some (start, r) =>
                        match skip_spaces r with
                        | 45 :: r1 =>
                            match skip_spaces r1 with
                            | [] => range_found start len
                            | r2 => range_last false start len r2
                            end
                        | _ => None
                        end
                    end
           end
       end.
