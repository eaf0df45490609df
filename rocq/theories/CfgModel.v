(* Parameter sets out of the decoder configurations of H.264 and H.265:
     nginx-pckg-module/src/media/codec_config.c, and its use in ngx_pckg_ksmp.c.
   The extra data is a list of bytes; a read beyond its end is None in the functions that
   write. *)
From Coq Require Import ZArith List Bool.
From Verif Require Import Bytes.
Import ListNotations.
Open Scope Z_scope.

(* read_be16, read_stream.h:15, of two bytes *)
Definition be16 (d : list Z) : Z := unbe (firstn 2 d).

(* codec_config.c:67-88 and 172-195: the units of a kind; None: return 0.  Gives the size and
   the rest of the data. *)
Fixpoint units_size (count : nat) (cur : list Z) (size : Z) : option (Z * list Z) :=
  match count with
  | O => Some (size, cur)
  | S count =>
      if Z.of_nat (length cur) <? 2 then None
      else
        let unit_size := be16 cur in
        let cur := skipn 2 cur in
        if Z.of_nat (length cur) <? unit_size then None
        else units_size count (skipn (Z.to_nat unit_size) cur) (size + 4 + unit_size)
  end.
(* lines 107-119 and 215-227.  None: a read beyond the end *)
Fixpoint units_write (count : nat) (cur p : list Z) : option (list Z * list Z) :=
  match count with
  | O => Some (p, cur)
  | S count =>
      if (length cur <? 2)%nat then None
      else
        let unit_size := be16 cur in
        let cur := skipn 2 cur in
        if Z.of_nat (length cur) <? unit_size then None
        else units_write count (skipn (Z.to_nat unit_size) cur) (p ++ [0; 0; 0; 1] ++ firstn (Z.to_nat unit_size) cur)
  end.

(* sizeof(avcc_config_t), codec_config.h:17-24 *)
Definition AVCC : nat := 5.
(* codec_config_avcc_get_nal_length_size, lines 21-34 *)
Definition avcc_nal_length_size (d : list Z) : Z :=
  if (length d <? AVCC)%nat then 0 else Z.land (nth 4 d 0) 3 + 1.
(* the loop of lines 58-89: [rounds] kinds *)
Fixpoint avcc_size_loop (rounds : nat) (cur : list Z) (size : Z) : Z :=
  match rounds with
  | O => size
  | S rounds =>
      match cur with
      | [] => 0
      | c :: cur =>
          match units_size (Z.to_nat (Z.land c 31)) cur size with
          | None => 0
          | Some (size, cur) => avcc_size_loop rounds cur size
          end
      end
  end.
(* codec_config_avcc_nal_units_get_size, lines 36-92 *)
Definition avcc_size (d : list Z) : Z :=
  if (length d <? AVCC)%nat then 0 else avcc_size_loop 2 (skipn AVCC d) 0.
(* the loop of lines 105-120 *)
Fixpoint avcc_write_loop (rounds : nat) (cur p : list Z) : option (list Z) :=
  match rounds with
  | O => Some p
  | S rounds =>
      match cur with
      | [] => None
      | c :: cur =>
          match units_write (Z.to_nat (Z.land c 31)) cur p with
          | None => None
          | Some (p, cur) => avcc_write_loop rounds cur p
          end
      end
  end.
(* codec_config_avcc_nal_units_write, lines 94-123 *)
Definition avcc_write (d : list Z) : option (list Z) :=
  if (length d <? AVCC)%nat then None else avcc_write_loop 2 (skipn AVCC d) [].

Definition HVCC_HEADER_SIZE : nat := 22.
(* codec_config_hvcc_get_nal_length_size, lines 126-137 *)
Definition hvcc_nal_length_size (d : list Z) : Z :=
  if (length d <? HVCC_HEADER_SIZE)%nat then 0 else Z.land (nth 21 d 0) 3 + 1.
(* the loop of lines 160-196 *)
Fixpoint hvcc_size_loop (types : nat) (cur : list Z) (size : Z) : Z :=
  match types with
  | O => size
  | S types =>
      if Z.of_nat (length cur) <? 3 then 0
      else
        let cur := skipn 1 cur in
        match units_size (Z.to_nat (be16 cur)) (skipn 2 cur) size with
        | None => 0
        | Some (size, cur) => hvcc_size_loop types cur size
        end
  end.
(* codec_config_hvcc_nal_units_get_size, lines 139-199 *)
Definition hvcc_size (d : list Z) : Z :=
  if (length d <=? HVCC_HEADER_SIZE)%nat then 0
  else match skipn HVCC_HEADER_SIZE d with [] => 0 | t :: cur => hvcc_size_loop (Z.to_nat t) cur 0 end.
(* the loop of lines 211-228 *)
Fixpoint hvcc_write_loop (types : nat) (cur p : list Z) : option (list Z) :=
  match types with
  | O => Some p
  | S types =>
      if (length cur <? 3)%nat then None
      else
        let cur := skipn 1 cur in
        match units_write (Z.to_nat (be16 cur)) (skipn 2 cur) p with
        | None => None
        | Some (p, cur) => hvcc_write_loop types cur p
        end
  end.
(* codec_config_hvcc_nal_units_write, lines 201-231 *)
Definition hvcc_write (d : list Z) : option (list Z) :=
  match skipn HVCC_HEADER_SIZE d with [] => None | t :: cur => hvcc_write_loop (Z.to_nat t) cur [] end.

(* ngx_pckg_ksmp_parse_avc_extra_data and ngx_pckg_ksmp_parse_hevc_extra_data,
   ngx_pckg_ksmp.c:888-927 and 959-998.  [Beyond]: a read beyond the data or a write beyond the
   allocated bytes. *)
Inductive parsed := Refused | Parsed (d : list Z) | Beyond.
Definition parse_extra_data (size : Z) (write : option (list Z)) : parsed :=
  if size <=? 0 then Refused
  else match write with
       | None => Beyond
       | Some p => if size <? Z.of_nat (length p) then Beyond
                   else if negb (Z.of_nat (length p) =? size) then Refused else Parsed p
       end.
Definition parse_avc_extra_data (d : list Z) : parsed := parse_extra_data (avcc_size d) (avcc_write d).
Definition parse_hevc_extra_data (d : list Z) : parsed := parse_extra_data (hvcc_size d) (hvcc_write d).
