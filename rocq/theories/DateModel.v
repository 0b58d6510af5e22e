(** Times as texts: what [datetime.isoformat] writes and, of what
    [aniso8601.parse_datetime] reads, the formats that are written by this program or by
    SQLite's [datetime].  Library behaviour; the calls are cited where they are made. *)
From Verif Require Import Prelude BytesModel CborModel.
Set Implicit Arguments.

(** A [datetime]; the offset of its timezone in minutes, [None] for a naive one.  Offsets
    with seconds are left out. *)
Record stamp := Stamp { s_date : date; s_offset : option Z }.

Definition aware (s : stamp) : bool := match s_offset s with Some _ => true | None => false end.
Definition stamp_ok (s : stamp) : bool :=
  date_ok (s_date s) && match s_offset s with Some m => (-1440 <? m) && (m <? 1440) | None => true end.

Definition offset_text (o : option Z) : bytes :=
  match o with
  | None => []
  | Some m => (if m <? 0 then x2d else x2b) :: digits 2 (Z.abs m / 60) ++ [x3a] ++ digits 2 (Z.abs m mod 60)
  end.

(** [s.isoformat(sep)] *)
Definition stamp_text (sep : byte) (s : stamp) : bytes :=
  let d := s_date s in
  digits 4 (d_year d) ++ [x2d] ++ digits 2 (d_month d) ++ [x2d] ++ digits 2 (d_day d) ++
  [sep] ++ digits 2 (d_hour d) ++ [x3a] ++ digits 2 (d_minute d) ++ [x3a] ++ digits 2 (d_second d) ++
  (if d_micro d =? 0 then [] else x2e :: digits 6 (d_micro d)) ++ offset_text (s_offset s).

(** The offset at the end of a time; aniso8601 refuses -00:00. *)
Definition parse_offset (s : bytes) : option (option Z) :=
  match s with
  | [] => Some None
  | c :: s' =>
      if Byte.eqb c x5a then match s' with [] => Some (Some 0) | _ => None end
      else if Byte.eqb c x2b || Byte.eqb c x2d then
        let? (h, s1) := take_digits 2 s' in let? s2 := take_char x3a s1 in let? (m, s3) := take_digits 2 s2 in
        let minutes := h * 60 + m in
        if (24 <=? h) || (60 <=? m) then None
        else match s3 with
             | [] => if Byte.eqb c x2b then Some (Some minutes)
                     else if minutes =? 0 then None else Some (Some (- minutes))
             | _ => None
             end
      else None
  end.

(** [aniso8601.parse_datetime(s, delimiter=sep)] *)
Definition parse_stamp (sep : byte) (s : bytes) : option stamp :=
  let? (y, s) := take_digits 4 s in let? s := take_char x2d s in
  let? (mo, s) := take_digits 2 s in let? s := take_char x2d s in
  let? (da, s) := take_digits 2 s in let? s := take_char sep s in
  let? (h, s) := take_digits 2 s in let? s := take_char x3a s in
  let? (mi, s) := take_digits 2 s in let? s := take_char x3a s in
  let? (se, s) := take_digits 2 s in
  let? (us, s) :=
    match take_char x2e s with
    | Some s' => take_digits 6 s'
    | None => Some (0, s)
    end in
  let? o := parse_offset s in
  let d := Date y mo da h mi se us in if date_ok d then Some (Stamp d o) else None.
