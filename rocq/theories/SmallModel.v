(** Small self-contained pieces of lib: wakeup_chars.cpp, input_params.cpp, scroll_car.cpp, alias_cache.cpp. *)
From Coq Require Import QArith.
From Verif Require Import Base.
Open Scope nat_scope.

(** ** clink/lib/src/wakeup_chars.cpp 19-48 (strip_wakeup_chars_worker)

    The buffer is a list of code units (Z: char is signed, wchar_t unsigned).  A read or write outside the buffer is
    None.  uint32 max_chars is the recursion argument. *)
Definition wput (l : list Z) (i : nat) (c : Z) : option (list Z) :=
  if i <? length l then Some (firstn i l ++ c :: skipn (S i) l) else None.

(** line 34: c < 0 || c >= 32 || !(s_dwCtrlWakeupMask & 1 << c) *)
Definition wkeep (mask c : Z) : bool :=
  (c <? 0)%Z || (32 <=? c)%Z || (Z.land mask (Z.shiftl 1 c) =? 0)%Z.

(** lines 28-44 *)
Fixpoint wloop (mask : Z) (max rd wr : nat) (buf : list Z) : option (nat * nat * list Z) :=
  match max with
  | 0 => Some (rd, wr, buf)
  | S max' =>
    match nth_error buf rd with
    | None => None
    | Some c =>
      if (c =? 0)%Z then Some (rd, wr, buf)
      else if wkeep mask c then
        if wr =? rd then wloop mask max' (S rd) (S wr) buf
        else match wput buf wr c with
             | None => None
             | Some buf' => wloop mask max' (S rd) (S wr) buf'
             end
      else wloop mask max' (S rd) wr buf
    end
  end.

(** lines 20-47 *)
Definition strip_wakeup (mask : Z) (max : nat) (buf : list Z) : option (list Z) :=
  match max with
  | 0 => Some buf
  | _ => match wloop mask max 0 0 buf with
         | None => None
         | Some (rd, wr, buf') => if wr =? rd then Some buf' else wput buf' wr 0
         end
  end.

(** ** clink/lib/src/input_params.cpp 10-57, input_params.h 7-20

    m_params[4] of unsigned short, m_num (uint8), m_len (short). *)
Record iparams := mkIP { ip_params : list Z; ip_num : nat; ip_len : Z }.

(** input_params.h 17-19; the array is not initialised there: any contents *)
Definition ip_init (junk : list Z) : iparams := mkIP junk 0 0.

(** lines 10-20: (found, value) *)
Definition ip_get (p : iparams) (i : nat) : option (bool * Z) :=
  if ip_num p <=? i then Some (false, 0%Z)
  else match nth_error (ip_params p) i with Some v => Some (true, v) | None => None end.

(** conversion to short (two's complement) *)
Definition to_short (z : Z) : Z := ((z + 32768) mod 65536 - 32768)%Z.

(** lines 35-47 *)
Definition ip_add (p : iparams) (value len : Z) : option (bool * iparams) :=
  if 4 <=? ip_num p then Some (false, p)
  else match wput (ip_params p) (ip_num p) value with
       | None => None
       | Some a => Some (true, mkIP a (S (ip_num p)) (to_short (to_short (ip_len p + len) - 1)))
       end.

(** lines 50-54 *)
Definition ip_clear (p : iparams) : iparams := mkIP (ip_params p) 0 0.

(** ** clink/lib/src/scroll_car.cpp 23-131 (USE_HALF_CHARS) *)
(** line 26: pos & ~1 *)
Definition round1 (p : Z) : Z := Z.land p (-2).

(** int32: None stands for overflow (undefined in C++) *)
Definition i32 (z : Z) : option Z := if ((-2147483648 <=? z) && (z <? 2147483648))%Z then Some z else None.

(** lines 39-46; [enabled] is use_vert_scrollbars(); c_min_car_size = c_scale_positions = 2 *)
Definition car_size (enabled : bool) (rows total : Z) : option Z :=
  if (negb enabled || (rows <=? 0) || (total <=? rows))%Z then Some 0%Z
  else match i32 (2 * rows) with None => None | Some r2 =>
       match i32 (r2 * rows) with None => None | Some r3 =>
       match i32 (r3 + total / 2) with None => None | Some r4 =>
       Some (Z.max 2 (Z.min r2 (r4 / total)))
       end end end.

(** lines 49-65.  Doubles are rationals here and [rnd] is the rounding of a division's exact result to a double
    (conversions from int32 are exact); int32(x) truncates towards zero. *)
Definition car_offset (rnd : Q -> Q) (top rows total size : Z) : option Z :=
  if (size <=? 0)%Z then Some 0%Z
  else match i32 (rows * 2) with None => None | Some r2 =>
       match i32 (r2 + 1) with None => None | Some r21 =>
       match i32 (r21 - size) with None => None | Some positions =>
       if (positions <=? 0)%Z then Some 0%Z
       else match i32 (total - rows) with None => None | Some d =>
            let per := rnd (inject_Z d / inject_Z positions)%Q in
            if Qle_bool per 0 then Some 0%Z
            else let q := rnd (inject_Z top / per)%Q in
                 match i32 (Z.quot (Qnum q) (Zpos (Qden q))) with
                 | None => None
                 | Some o => Some (Z.min (r2 - size) o)
                 end
            end
       end end end.

(** lines 67-122: the index into c_car_chars, None for nullptr *)
Definition car_char (row offset size : Z) (floating : bool) : option nat :=
  if (size <=? 0)%Z then None
  else
    let row := (row * 2)%Z in
    let full := (size + (if (offset =? round1 offset)%Z then 0 else 1)
                      + (if (offset + size =? round1 (offset + size))%Z then 0 else 1))%Z in
    let full := round1 (full + 1) in
    if ((round1 offset <=? row) && (row <? round1 offset + full))%Z then
      let index := if ((row =? round1 offset) && negb (row =? offset))%Z then 0
                   else if ((row =? round1 (offset + size)) && negb (row =? offset + size))%Z then 2
                   else 1 in
      Some (if floating then index + 3 else index)
    else None.

(** lines 125-131 *)
Definition hittest (row rows total : Z) : option Z :=
  if ((rows <=? 1) || (total <=? 1))%Z then Some 0%Z
  else match i32 (row * (total - 1)) with None => None | Some x => Some (Z.quot x (rows - 1)) end.

(** ** clink/lib/src/alias_cache.cpp, with os::get_alias (clink/core/src/os.cpp 983-1005)

    os::get_alias leaves [out] alone when there is no such alias or its text is empty. *)
Definition os_alias (defs : bytes -> option bytes) (name out : bytes) : bool * bytes :=
  match defs name with
  | None => (false, out)
  | Some [] => (false, out)
  | Some v => (true, v)
  end.

(** m_map: str_map_caseless; [key] stands for the equivalence class of a name under stricmp *)
Definition acache := list (bytes * bytes).
Fixpoint ac_find (key : bytes -> bytes) (m : acache) (name : bytes) : option bytes :=
  match m with
  | [] => None
  | (n, v) :: m' => if eqb_bytes (key n) (key name) then Some v else ac_find key m' name
  end.

(** lines 17-37.  (exists, out, cache) *)
Definition ac_get (key : bytes -> bytes) (defs : bytes -> option bytes) (m : acache) (name out : bytes)
  : bool * bytes * acache :=
  match ac_find key m name with
  | Some [] => (false, out, m)
  | Some v => (true, v, m)
  | None => let '(e, o) := os_alias defs name out in (e, o, (name, o) :: m)
  end.

(** lines 10-14 *)
Definition ac_clear : acache := [].
