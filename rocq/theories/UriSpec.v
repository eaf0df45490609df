(* What the name of a file asks for, and what the live server is asked. *)
From Coq Require Import String Ascii ZArith List Bool.
From Verif Require Import Bytes M3u8Model M3u8Spec UriModel.
Import ListNotations.
Open Scope Z_scope.

(* ----- how an http server reads the path of a request: %XX is a byte, which
   must not be zero; the file is what follows the last slash, the extension
   what follows the last dot of the file *)
Definition hex_digit (c : Z) : option Z :=
  if (48 <=? c) && (c <=? 57) then Some (c - 48)
  else if (65 <=? c) && (c <=? 70) then Some (c - 55)
  else if (97 <=? c) && (c <=? 102) then Some (c - 87) else None.
Fixpoint decode (l : list Z) : option (list Z) :=
  match l with
  | [] => Some []
  | c :: r =>
      if c =? 37 then
        match r with
        | a :: b :: r' =>
            match hex_digit a, hex_digit b, decode r' with
            | Some x, Some y, Some t => if 16 * x + y =? 0 then None else Some (16 * x + y :: t)
            | _, _, _ => None
            end
        | _ => None
        end
      else match decode r with Some t => Some (c :: t) | None => None end
  end.
(* the text after the last [c]; the whole text when there is none *)
Fixpoint after_last (c : Z) (l : list Z) : list Z :=
  match l with
  | [] => []
  | x :: r => if existsb (Z.eqb c) r then after_last c r else if x =? c then r else l
  end.
(* the text before the last [c] *)
Definition before_last (c : Z) (l : list Z) : list Z :=
  firstn (length l - length (after_last c l) - 1) l.

(* what the packager makes of a request for a uri, relative to the location
   of the playlist *)
Definition fetch (f : loc) (uri args : list Z) : out ask :=
  match decode uri with
  | None => Bad
  | Some path =>
      let file := after_last 47 path in
      if existsb (Z.eqb 46) file
      then core_parse f (before_last 46 file) (after_last 46 file) args
      else Bad
  end.

(* ----- what may be asked for *)
Inductive kind :=
| Segment (i : Z)          (* segment [i], from zero *)
| Part (i k : Z)           (* part [k] of segment [i], from zero *)
| Init (i : Z)             (* the initialization segment of the media info at [i] *)
| Playlist (skip : Z)      (* without what is older than [skip] percent of the target duration; 0 is all *)
| Wait (i k skip : Z)      (* the playlist that has part [k] of segment [i]; -1 is the whole *)
| KeyFile
| MasterList.              (* the master playlist *)

(* the segment and part index that the server is asked for: none is 2^32-1 *)
Definition none : Z := 2 ^ 32 - 1.
Definition seg_of (w : kind) : Z :=
  match w with Segment i | Part i _ | Init i => i | _ => none end.
Definition part_of (w : kind) : Z := match w with Part _ k => k | _ => none end.
Definition handler_ok (w : kind) (h : handler) : Prop :=
  match w with
  | Segment _ | Part _ _ => h = TsSegment \/ h = Mp4Segment \/ h = VttSegment
  | Init _ => h = InitSegment
  | Playlist _ | Wait _ _ _ => h = Index
  | KeyFile => h = EncKey
  | MasterList => h = Master
  end.
Definition skip_of (w : kind) : Z := match w with Playlist s | Wait _ _ s => s | _ => 0 end.
(* media is only read for a segment or a part *)
Definition wants_media (w : kind) : bool := match w with Segment _ | Part _ _ => true | _ => false end.

(* [reaches f channel timeline uri args w ids types]: the packager accepts the
   uri, gives it to the handler of such files, and sends a request that the
   live server accepts and understands as one for [w] of the variants [ids]
   of this channel and timeline, restricted to the media types [types] (a
   mask: 1 video, 2 audio, 4 subtitles) *)
Definition reaches (f : loc) (channel timeline uri args : list Z) (w : kind)
    (ids : list (list Z)) (types : Z) : Prop :=
  exists a text p,
    fetch f uri args = Ok a /\ handler_ok w (a_handler a)
    /\ create_request (request_of channel timeline none a) = Some text
    /\ live_parse text = Some p
    /\ p_channel p = Some channel /\ p_timeline p = Some timeline
    /\ match p_ids p with Some t => ids_loop [] t | None => [] end = ids
    /\ p_mask p = types
    /\ p_seg p = seg_of w /\ p_part p = part_of w
    /\ p_time_arg p = 2 ^ 63 - 1 /\ p_max_seg p = none
    /\ has (p_flags p) F_MEDIA = wants_media w
    /\ p_skip p = skip_of w /\ has (p_flags p) F_SKIP_SEGMENTS = (0 <? skip_of w)
    /\ match w with
       | Wait i k _ => has (p_flags p) F_WAIT = true /\ p_wait_sequence p = i
                     /\ p_wait_part p = (if k =? -1 then none else k)
       | _ => has (p_flags p) F_WAIT = false
       end.

(* ----- hypotheses *)

(* an id that the live server allows, of bytes that are not zero *)
Definition id_ok (id : list Z) : Prop := Forall is_byte id /\ ~ In 0 id /\ ~ In 45 id /\ ~ In 47 id.

(* the flags that the configuration can set: ngx_http_pckg_core_module.c:111-129, 2192-2195 *)
Definition loc_ok (f : loc) : Prop :=
  (exists a b : bool, l_base_flags f = 256 + (if a then 2 ^ 27 else 0) + (if b then 2 ^ 28 else 0))
  /\ (l_active_policy f = 2 ^ 20 \/ l_active_policy f = 2 ^ 21)
  /\ 0 <= l_skip_percent f < 2 ^ 32.

(* the containers: extension and the media types it can hold *)
Definition container (ext : list Z) (can : Z) : Prop :=
  ext = str ".ts" /\ can = 3 \/ ext = str ".m4s" /\ can = 7 \/ ext = str ".vtt" /\ can = 4.

(* a mask of media types that a container can hold, all of them being 7 *)
Definition fits (types can : Z) : Prop := types = 7 \/ 1 <= types <= 6 /\ Z.land types can = types.

(* one media type *)
Definition single (types : Z) : Prop := types = 1 \/ types = 2 \/ types = 4.

(* the query of a blocking request (rfc8216bis, 6.2.5.1) *)
Definition wait_args (i k : Z) (skip : bool) : list Z :=
  str "_HLS_msn=" ++ dec i ++ (if k =? -1 then [] else str "&_HLS_part=" ++ dec k)
  ++ (if skip then str "&_HLS_skip=YES" else []).

(* the uri of the master playlist of some variants *)
Definition master_uri (ids : list (list Z)) (types : Z) : list Z :=
  str "master" ++ flat_map (fun id => str "-s" ++ escape id) ids ++ mask_text types ++ str ".m3u8".

(* ----- names *)

(* the letters of media types: no repetition, and their mask *)
Definition letters_mask (l : list Z) : Z :=
  (if existsb (Z.eqb 118) l then 1 else 0) + (if existsb (Z.eqb 97) l then 2 else 0)
  + (if existsb (Z.eqb 116) l then 4 else 0).
(* an end of a name that says [types], where [can] are possible: nothing (all
   that is possible) or a dash and different letters of possible types *)
Definition says_types (can : Z) (l : list Z) (types : Z) : Prop :=
  l = [] /\ types = can
  \/ exists letters, l = 45 :: letters /\ letters <> [] /\ NoDup letters
     /\ Forall (fun c => c = 118 /\ Z.land can 1 <> 0 \/ c = 97 /\ Z.land can 2 <> 0
                         \/ c = 116 /\ Z.land can 4 <> 0) letters
     /\ types = letters_mask letters.
(* digits that say [i] plus one *)
Definition says_index (ds : list Z) (i : Z) : Prop :=
  Forall (fun c => digit c = true) ds
  /\ u32 (fold_left (fun a c => 10 * a + (c - 48)) ds 0) = i + 1 /\ 0 <= i.

(* the name [l] of a segment or part, without extension, where the container
   can hold [can]: what it is of, the variant and the media types.  A part is
   of one media type *)
Definition says_file (can : Z) (l : list Z) (w : kind) (id : list Z) (t : Z) : Prop :=
  exists sfx, says_types can sfx t /\ ~ In 45 id /\
  match w with
  | Segment i => exists ds, says_index ds i /\ l = str "seg-" ++ ds ++ str "-s" ++ id ++ sfx
  | Part i k => exists ds dk, says_index ds i /\ says_index dk k /\ single t
                /\ l = str "part-" ++ ds ++ str "-" ++ dk ++ str "-s" ++ id ++ sfx
  | _ => False
  end.
(* the name of a fragmented mp4 file may end in a subtitle format *)
Definition ends (s l : list Z) : Prop := exists r, l = r ++ s.
Definition stripped (ext base l : list Z) : Prop :=
  if list_eq_dec Z.eq_dec ext (str "m4s")
  then base = l ++ str "-wvtt" \/ base = l ++ str "-stpp"
       \/ base = l /\ ~ ends (str "-wvtt") l /\ ~ ends (str "-stpp") l
  else base = l.
(* the extensions, without the dot *)
Definition extension (ext : list Z) (can : Z) : Prop :=
  ext = str "ts" /\ can = 3 \/ ext = str "m4s" /\ can = 7 \/ ext = str "vtt" /\ can = 4.
(* what is asked for is segment or part [w] of variant [id], media types [t] *)
Definition asks (a : ask) (w : kind) (id : list Z) (t : Z) : Prop :=
  handler_ok w (a_handler a) /\ n_ids (a_name a) = Some id /\ n_mask (a_name a) = t
  /\ match w with
     | Segment i => n_seg (a_name a) = i /\ n_part (a_name a) = none
     | Part i k => n_seg (a_name a) = i /\ n_part (a_name a) = k /\ k <> none
     | _ => False
     end.

(* ----- what the live server is asked *)

(* a request the packager can send *)
Definition kreq_ok (q : kreq) : Prop :=
  Forall is_byte (k_channel q) /\ Forall is_byte (k_timeline q)
  /\ (forall v, k_ids q = Some v -> Forall is_byte v)
  /\ 0 < k_mask q <= 7 /\ 0 <= k_seg q <= none /\ 0 <= k_max_seg q <= none /\ 0 <= k_part q <= none
  /\ 0 <= k_skip q < 2 ^ 32 /\ 0 <= k_time q <= 2 ^ 63 - 1
  /\ (k_padding q = 0 \/ 12 <= k_padding q <= 128) /\ 0 <= k_flags q < 2 ^ 32.

(* the parameters that say the same as a request *)
Definition same (q : kreq) : params :=
  {| p_channel := Some (k_channel q); p_timeline := Some (k_timeline q); p_ids := k_ids q;
     p_mask := k_mask q; p_time_arg := k_time q; p_seg := k_seg q; p_max_seg := k_max_seg q;
     p_part := k_part q; p_skip := k_skip q; p_padding := k_padding q; p_flags := k_flags q;
     p_wait_sequence := 0; p_wait_part := 0 |}.

(* ----- range requests: bytes of a file of [len] bytes, RFC 7233 *)
Inductive range := Between (a b : Z) | From (a : Z) | Suffix (n : Z).
(* the text of a range, with any spaces where they are allowed by the code;
   [number d v]: the digits [d] are a number [v] *)
Definition number (d : list Z) (v : Z) : Prop := num d = Some v /\ v < 2 ^ 63.
Definition spaces (l : list Z) : Prop := Forall (fun c => c = 32) l.
Definition range_text (r : range) (text : list Z) : Prop :=
  exists w s1, map lower w = str "bytes=" /\ spaces s1 /\
  match r with
  | Between a b => exists d1 s2 s3 d2 s4, spaces s2 /\ spaces s3 /\ spaces s4
      /\ number d1 a /\ number d2 b /\ text = w ++ s1 ++ d1 ++ s2 ++ [45] ++ s3 ++ d2 ++ s4
  | From a => exists d1 s2 s3, spaces s2 /\ spaces s3 /\ number d1 a
      /\ text = w ++ s1 ++ d1 ++ s2 ++ [45] ++ s3
  | Suffix n => exists d s2, spaces s2 /\ number d n /\ text = w ++ s1 ++ [45] ++ d ++ s2
  end.
(* the bytes asked for: first and past the last; None when there are none *)
Definition bytes_of (r : range) (len : Z) : option (Z * Z) :=
  match r with
  | Between a b => if (a <? len) && (a <=? b) then Some (a, Z.min (b + 1) len) else None
  | From a => if a <? len then Some (a, len) else None
  | Suffix n => if (0 <? n) && (0 <? len) then Some (Z.max 0 (len - n), len) else None
  end.
