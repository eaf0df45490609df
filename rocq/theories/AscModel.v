(* The configuration of AAC: codec_config_mp4a_config_parse,
   nginx-pckg-module/src/media/codec_config.c:475-536, over the bit reader of NameModel.v.
   Left out: logging.  The fields of the result are bytes; no value here exceeds 95. *)
From Coq Require Import ZArith List Bool.
From Verif Require Import Bytes NameModel.
Import ListNotations.
Open Scope Z_scope.

(* codec_config.c:11 *)
Definition AOT_ESCAPE : Z := 31.
(* codec_config.c:13 *)
Definition AOT_SBR : Z := 5.
(* codec_config.c:15 *)
Definition AOT_PS : Z := 29.
(* codec_config.c:488-490 and 518-522 *)
Definition read_type (s : rd) : Z * rd :=
  let '(t, s) := get 5 s in
  if t =? AOT_ESCAPE then let '(x, s) := get 6 s in (32 + x, s) else (t, s).
(* codec_config.c:492-494 and 507-511: the index of the rate; the rate itself is skipped *)
Definition read_rate (s : rd) : Z * rd :=
  let '(r, s) := get 4 s in
  if r =? 15 then (r, snd (get 24 s)) else (r, s).
(* codec_config.c:503-505: the condition, on a copy of the reader *)
Definition has_extension (t : Z) (s : rd) : bool :=
  (t =? AOT_SBR) || ((t =? AOT_PS)
    && negb (negb (Z.land (fst (get 3 s)) 3 =? 0) && (Z.land (fst (get 9 (snd (get 3 s)))) 63 =? 0))).
(* codec_config_mp4a_config_parse, codec_config.c:475-536: object type, index of the rate,
   channels; None: VOD_BAD_DATA *)
Definition mp4a_parse (d : list Z) : option (Z * Z * Z) :=
  let '(t, s) := read_type (rd_init d) in
  let '(r, s) := read_rate s in
  let '(c, s) := get 4 s in
  if r_eof s then None
  else if has_extension t s then
    let '(_, s) := read_rate s in
    if r_eof s then None
    else
      let '(t, s) := read_type s in
      if r_eof s then None else Some (t, r, c)
  else Some (t, r, c).
