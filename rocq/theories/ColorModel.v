(** Model of parse_color and format_color (clink/core/src/settings.cpp 820-1250).  Texts are C strings without their NUL.
    str<16> and str<> grow, so tokens are not cut. *)
From Verif Require Import Base.

Definition lower (c : byte) : byte :=
  if (65 <=? N_of_ascii c)%N && (N_of_ascii c <=? 90)%N then ascii_of_N (N_of_ascii c + 32) else c.
(** strcmpi(a, b) == 0, in the C locale. *)
Definition iequal (a b : bytes) : bool := eqb_bytes (map lower a) (map lower b).
(** imatch3 (820-823): the first three characters; all names have at least three. *)
Definition imatch3 (token name : bytes) : bool := eqb_bytes (firstn 3 (map lower token)) (firstn 3 name).

(** str_tokeniser with one delimiter and no quotes (modelled in TokModel; its tokens are shown there to be the non-empty
    runs between delimiters). *)
Definition flush (cur : bytes) : list bytes := match cur with [] => [] | _ => [cur] end.
Fixpoint pieces_from (d : byte) (l cur : bytes) : list bytes :=
  match l with
  | [] => flush cur
  | c :: r => if Ascii.eqb c d then flush cur ++ pieces_from d r [] else pieces_from d r (cur ++ [c])
  end.
Definition pieces (d : byte) (l : bytes) : list bytes := pieces_from d l [].

(** parsehexdigit (826-835) *)
Definition parsehexdigit (c : byte) : Z :=
  let n := Z.of_N (N_of_ascii c) in
  if (48 <=? n)%Z && (n <=? 57)%Z then (n - 48)%Z
  else if (97 <=? n)%Z && (n <=? 102)%Z then (n - 87)%Z
  else if (65 <=? n)%Z && (n <=? 70)%Z then (n - 55)%Z
  else (-1)%Z.
(** parsehex (838-864) *)
Fixpoint parsehex_loop (double : bool) (s : bytes) (value : Z) : Z :=
  match s with
  | [] => value
  | c :: r =>
      let h := parsehexdigit c in
      if (h <? 0)%Z then (-1)%Z
      else let v := (value * 16 + h)%Z in parsehex_loop double r (if double then (v * 16 + h)%Z else v)
  end.
Definition parsehex (a : bytes) : Z :=
  match a with
  | c :: r => if Ascii.eqb c "#" && (Nat.eqb (length a) 4 || Nat.eqb (length a) 7)
              then parsehex_loop (Nat.eqb (length a) 4) r 0 else (-1)%Z
  | [] => (-1)%Z
  end.

(** color_names (867) *)
Definition color_names : list bytes :=
  [lit "black"; lit "red"; lit "green"; lit "yellow"; lit "blue"; lit "magenta"; lit "cyan"; lit "white"].

(** The variables of parse_color (880-892); p_on: pcolor and phex point to bg and bg_hex. *)
Record pstate := mkp {
  p_fg : Z; p_bg : Z; p_fg_hex : bool; p_bg_hex : bool; p_bold : Z; p_bright : Z; p_underline : Z;
  p_italic : bool; p_reverse : bool; p_on : bool; p_saw_default : bool }.
Definition p_init : pstate := mkp (-1) (-1) false false (-1) (-1) (-1) false false false false.
Definition p_color (p : pstate) : Z := if p_on p then p_bg p else p_fg p.
Definition p_hex (p : pstate) : bool := if p_on p then p_bg_hex p else p_fg_hex p.
Definition set_color (p : pstate) (v : Z) (h : bool) : pstate :=
  if p_on p
  then mkp (p_fg p) v (p_fg_hex p) h (p_bold p) (p_bright p) (p_underline p) (p_italic p) (p_reverse p) (p_on p) (p_saw_default p)
  else mkp v (p_bg p) h (p_bg_hex p) (p_bold p) (p_bright p) (p_underline p) (p_italic p) (p_reverse p) (p_on p) (p_saw_default p).

(** The loop over color_names (987-997): the index found. *)
Fixpoint find_name (token : bytes) (names : list bytes) (i : Z) : option Z :=
  match names with
  | [] => None
  | n :: r => if imatch3 token n then Some i else find_name token r (i + 1)%Z
  end.

(** One keyword (914-997); None: return false. *)
Definition p_step (p : pstate) (t : bytes) : option pstate :=
  if iequal t (lit "on") then
    if p_on p then None
    else Some (mkp (if negb (p_hex p) && (0 <? p_bright p)%Z then (p_fg p + 8)%Z else p_fg p) (p_bg p) (p_fg_hex p) (p_bg_hex p)
                   (p_bold p) (-1) (p_underline p) (p_italic p) (p_reverse p) true false)
  else if imatch3 t (lit "normal") || imatch3 t (lit "default") then
    if (0 <=? p_color p)%Z then None
    else if p_saw_default p then None
    else let q := set_color p (-1) false in
         Some (mkp (p_fg q) (p_bg q) (p_fg_hex q) (p_bg_hex q) (p_bold q) (p_bright q) (p_underline q) (p_italic q) (p_reverse q) (p_on q) true)
  else if imatch3 t (lit "bold") || imatch3 t (lit "nobold") || imatch3 t (lit "dim") then
    if p_on p then None
    else if (0 <=? p_bold p)%Z then None
    else Some (mkp (p_fg p) (p_bg p) (p_fg_hex p) (p_bg_hex p) (if imatch3 t (lit "bold") then 1 else 0) (p_bright p) (p_underline p)
                   (p_italic p) (p_reverse p) (p_on p) (p_saw_default p))
  else if imatch3 t (lit "bright") then
    if p_hex p then None
    else if (0 <=? p_bright p)%Z then None
    else Some (mkp (p_fg p) (p_bg p) (p_fg_hex p) (p_bg_hex p) (p_bold p) 1 (p_underline p)
                   (p_italic p) (p_reverse p) (p_on p) (p_saw_default p))
  else if imatch3 t (lit "underline") || imatch3 t (lit "nounderline") then
    if p_on p then None
    else if (0 <=? p_underline p)%Z then None
    else Some (mkp (p_fg p) (p_bg p) (p_fg_hex p) (p_bg_hex p) (p_bold p) (p_bright p) (if imatch3 t (lit "underline") then 1 else 0)
                   (p_italic p) (p_reverse p) (p_on p) (p_saw_default p))
  else if imatch3 t (lit "italic") then
    if p_on p then None
    else if p_italic p then None
    else Some (mkp (p_fg p) (p_bg p) (p_fg_hex p) (p_bg_hex p) (p_bold p) (p_bright p) (p_underline p)
                   true (p_reverse p) (p_on p) (p_saw_default p))
  else if imatch3 t (lit "reverse") then
    if p_reverse p then None
    else Some (mkp (p_fg p) (p_bg p) (p_fg_hex p) (p_bg_hex p) (p_bold p) (p_bright p) (p_underline p)
                   (p_italic p) true (p_on p) (p_saw_default p))
  else
    let h := parsehex t in
    if (0 <=? h)%Z then
      if (0 <=? p_color p)%Z then None
      else if (0 <=? p_bright p)%Z then None
      else Some (set_color p h true)
    else
      match find_name t color_names 0 with
      | Some i => if (0 <=? p_color p)%Z then None else Some (set_color p i (p_hex p))
      | None => None
      end.
Fixpoint p_run (p : pstate) (ts : list bytes) : option pstate :=
  match ts with
  | [] => Some p
  | t :: r => match p_step p t with None => None | Some q => p_run q r end
  end.

(** The code of one colour (1019-1042 with base 30 and 38, 1044-1067 with base 40 and 48). *)
Definition color_code (base : Z) (v : Z) (hex : bool) : bytes :=
  if (0 <=? v)%Z then
    if hex
    then lit ";" ++ dec (Z.to_N (base + 8)) ++ lit ";2;" ++ dec (Z.to_N (v / 256 / 256)) ++ lit ";" ++
         dec (Z.to_N ((v / 256) mod 256)) ++ lit ";" ++ dec (Z.to_N (v mod 256))
    else lit ";" ++ dec (Z.to_N ((if (8 <=? v)%Z then v + 52 else v) + base))
  else [].

(** The code (1000-1067). *)
Definition p_code (p0 : pstate) : bytes :=
  let p := if (0 <=? p_color p0)%Z && negb (p_hex p0) && (0 <? p_bright p0)%Z then set_color p0 (p_color p0 + 8) (p_hex p0) else p0 in
  lit "0" ++ (if p_reverse p then lit ";7" else []) ++
  (if (0 <? p_bold p)%Z then lit ";1" else if (p_bold p =? 0)%Z then lit ";22" else []) ++
  (if p_italic p then lit ";3" else []) ++
  (if (0 <? p_underline p)%Z then lit ";4" else []) ++
  color_code 30 (p_fg p) (p_fg_hex p) ++ color_code 40 (p_bg p) (p_bg_hex p).

Definition parse_words (ts : list bytes) : option bytes :=
  match ts with
  | t :: r =>
      if iequal t (lit "ansi") || iequal t (lit "sgr")
      then match r with [] => Some [] | [x] => Some x | _ => None end
      else option_map p_code (p_run p_init ts)
  | [] => Some (p_code p_init)
  end.
(** parse_color (870-1071); None: false is returned. *)
Definition parse_color (value : bytes) : option bytes :=
  match value with [] => Some [] | _ => parse_words (pieces SPC value) end.

(** int_from_str_iter (1074-1086); None: int32 overflows, which is undefined. *)
Fixpoint int_from (l : bytes) (x : Z) : option Z :=
  match l with
  | [] => Some x
  | c :: r => if is_digit c
              then let y := (x * 10 + Z.of_N (N_of_ascii c - 48))%Z in
                   if (2147483647 <? y)%Z then None else int_from r y
              else Some (-1)%Z
  end.

(** "%02.2X" of a number below 256 *)
Definition hexdigit (n : Z) : byte := ascii_of_N (Z.to_N (if (n <? 10)%Z then n + 48 else n + 55)).
Definition hex2 (n : Z) : bytes := [hexdigit (n / 16); hexdigit (n mod 16)].

(** parse24bit (1089-1108) on the four tokens it takes; None: undefined, Some None: false. *)
Definition parse24bit (a b c d : bytes) : option (option bytes) :=
  match int_from a 0, int_from b 0, int_from c 0, int_from d 0 with
  | Some k, Some r, Some g, Some b =>
      if (k =? 2)%Z && (0 <=? r)%Z && (r <=? 255)%Z && (0 <=? g)%Z && (g <=? 255)%Z && (0 <=? b)%Z && (b <=? 255)%Z
      then Some (Some (lit "#" ++ hex2 r ++ hex2 g ++ hex2 b)) else Some None
  | _, _, _, _ => None
  end.

Definition nope : option (option bytes) := Some None.
Definition name_of (i : Z) : bytes := nth (Z.to_nat i) color_names [].

(** The loop of format_color (1134-1241).  None: undefined; Some None: "goto nope".  (When fewer than four tokens are left
    for parse24bit it fails.) *)
Fixpoint f_loop (compat : bool) (parts : list bytes) (expected : nat) (out : bytes) (any_fg : bool) : option (option bytes) :=
  match parts with
  | [] => Some (Some out)
  | f :: r =>
      match int_from f 0 with
      | None => None
      | Some x =>
          if (x <? 0)%Z then nope
          else if Nat.leb 7 expected then nope
          else if Nat.eqb expected 0 && negb (x =? 0)%Z then nope
          else if (x =? 0)%Z then if Nat.ltb 0 expected then nope else f_loop compat r 1 out any_fg
          else if (x =? 7)%Z then if Nat.ltb 1 expected then nope else f_loop compat r 2 (out ++ lit "reverse ") any_fg
          else if (x =? 1)%Z || (x =? 22)%Z then
            if Nat.ltb 2 expected then nope
            else f_loop compat r 3 (out ++ (if (x =? 1)%Z then lit "bold " else lit "nobold ")) any_fg
          else if (x =? 3)%Z then if Nat.ltb 3 expected then nope else f_loop compat r 4 (out ++ lit "italic ") any_fg
          else if (x =? 4)%Z then if Nat.ltb 4 expected then nope else f_loop compat r 5 (out ++ lit "underline ") any_fg
          else if ((30 <=? x) && (x <? 38) || (90 <=? x) && (x <? 98))%Z then
            if Nat.ltb 5 expected then nope
            else f_loop compat r 6 (out ++ (if (90 <=? x)%Z then lit "bright " else []) ++
                                    name_of ((if (90 <=? x)%Z then x - 60 else x) - 30) ++ lit " ") true
          else if (x =? 38)%Z && negb compat then
            if Nat.ltb 5 expected then nope
            else match r with
                 | a :: b :: c :: d :: r' =>
                     match parse24bit a b c d with
                     | None => None
                     | Some None => nope
                     | Some (Some h) => f_loop compat r' 6 (out ++ h ++ lit " ") true
                     end
                 | _ => nope
                 end
          else if (x =? 39)%Z then if Nat.ltb 5 expected then nope else f_loop compat r 6 (out ++ lit "default ") true
          else if ((40 <=? x) && (x <? 48) || (100 <=? x) && (x <? 108))%Z then
            if Nat.ltb 6 expected then nope
            else f_loop compat r 7 (out ++ (if any_fg then [] else lit "default ") ++ lit "on " ++
                                    (if (90 <=? x - 10)%Z then lit "bright " else []) ++
                                    name_of ((if (90 <=? x - 10)%Z then x - 10 - 60 else x - 10) - 30) ++ lit " ") any_fg
          else if (x =? 48)%Z && negb compat then
            if Nat.ltb 6 expected then nope
            else match r with
                 | a :: b :: c :: d :: r' =>
                     match parse24bit a b c d with
                     | None => None
                     | Some None => nope
                     | Some (Some h) => f_loop compat r' 7 (out ++ (if any_fg then [] else lit "default ") ++ lit "on " ++ h ++ lit " ") any_fg
                     end
                 | _ => nope
                 end
          else if (x =? 49)%Z then if Nat.ltb 6 expected then nope else f_loop compat r 7 (out ++ lit "on default ") any_fg
          else nope
      end
  end.

(** strip_if_ends_with (1111-1119) *)
Definition strip_if_ends_with (s suffix : bytes) : option bytes :=
  if Nat.ltb (length suffix) (length s) && prefixb (rev suffix) (rev s)
  then Some (firstn (length s - length suffix) s) else None.

(** Truncating trailing blanks (1248-1249). *)
Fixpoint drop_blanks (l : bytes) : bytes := match l with c :: r => if Ascii.eqb c SPC then drop_blanks r else l | [] => [] end.
Definition trim_blanks (l : bytes) : bytes := rev (drop_blanks (rev l)).

(** The end of format_color (1243-1246). *)
Definition f_strip (out : bytes) : bytes :=
  if match out with [] => true | _ => false end || eqb_bytes out (lit "default on default ") then lit "default"
  else match strip_if_ends_with out (lit "default on default ") with
       | Some o => o
       | None => match strip_if_ends_with out (lit "on default ") with Some o => o | None => out end
       end.

(** format_color (1122-1250); None: undefined. *)
Definition format_color (compat : bool) (color : bytes) : option bytes :=
  match color with
  | [] => Some []
  | _ =>
      match f_loop compat (pieces ";" color) 0 [] false with
      | None => None
      | Some None => Some (lit "sgr " ++ color)
      | Some (Some out) => Some (trim_blanks (f_strip out))
      end
  end.
