(** Model of the coloring of the input line (clink/lib/src/word_classifications.cpp, clink/lua/src/lua_word_classifications.cpp).
    What is recorded for tests only (classify_word, get_test_infos) is not modelled. *)
From Verif Require Import Base ColorModel.

(** display_readline.h 65, 85-93 *)
Definition FACE_SPACE : byte := SPC.
Definition FACE_ARGMATCHER : byte := "m"%char.

(** word_classifications (word_classifications.h 77-87).  The keys of the face map point at the texts in the vector of
    definitions.  The text of an empty definition lies in the element itself (str.cpp 23-31), so its key dangles once a
    further definition may have moved the elements; emplacing the key of that definition then reads it (undefined).  Null arrays are [None]; malloc is assumed to succeed. *)
Record wc := mkw { w_defs : list bytes; w_map : list (bytes * byte); w_arg : bool;
                   w_faces : option bytes; w_words : option bytes; w_len : nat }.
Definition wc0 : wc := mkw [] [] false None None 0.

(** char(face_base + i) (106, 205) *)
Definition face_of (i : nat) : byte := ascii_of_nat (128 + i).
Definition face_max : nat := 100.
(** std::map with stricmp: find, and emplace, which keeps what is there *)
Definition map_find (k : bytes) (m : list (bytes * byte)) : option byte := option_map snd (find (fun e => iequal (fst e) k) m).
Definition map_emplace (k : bytes) (f : byte) (m : list (bytes * byte)) : list (bytes * byte) :=
  match map_find k m with Some _ => m | None => m ++ [(k, f)] end.
Definition is_nil (t : bytes) : bool := match t with [] => true | _ => false end.
(** Adding a definition (75-77, 205-208); None: a dangling key is read. *)
Definition add_def (t : bytes) (d : list bytes * list (bytes * byte)) : option (list bytes * list (bytes * byte)) :=
  let '(defs, m) := d in
  if existsb is_nil defs then None else Some (defs ++ [t], map_emplace t (face_of (length defs)) m).
Fixpoint add_defs (ts : list bytes) (d : list bytes * list (bytes * byte)) : option (list bytes * list (bytes * byte)) :=
  match ts with [] => Some d | t :: r => match add_def t d with None => None | Some d' => add_defs r d' end end.
(** init (70-104), with clear (52-67) *)
Definition init (n : nat) (defs : list bytes) (arg : bool) : option wc :=
  match add_defs defs ([], []) with
  | None => None
  | Some (ds, m) => Some (match n with
                              | 0 => mkw ds m arg None None 0
                              | _ => mkw ds m arg (Some (repeat FACE_SPACE n)) (Some (repeat FACE_SPACE n)) n
                              end)
  end.
(** finish (107-127) *)
Definition finish (s : wc) : wc :=
  match w_faces s, w_words s with
  | Some f, Some w => mkw (w_defs s) (w_map s) (w_arg s)
                          (Some (map (fun p => if Ascii.eqb (fst p) FACE_SPACE then snd p else fst p) (combine f w))) (Some w) (w_len s)
  | _, _ => s
  end.
(** get_face (180-185) *)
Definition get_face (s : wc) (pos : nat) : byte :=
  if w_len s <=? pos then SPC else match w_faces s with Some f => nth pos f NUL | None => NUL end.
(** get_face_output (188-194): uint8(face) - 128 as uint32 *)
Definition get_face_output (s : wc) (f : byte) : option bytes :=
  if nat_of_ascii f <? 128 then None else nth_error (w_defs s) (nat_of_ascii f - 128).
(** ensure_face (197-211); None: a dangling key is read. *)
Definition ensure_face (s : wc) (sgr : bytes) : option (wc * byte) :=
  match map_find sgr (w_map s) with
  | Some f => Some (s, f)
  | None =>
      if face_max <=? length (w_defs s) then Some (s, NUL) else
      match add_def sgr (w_defs s, w_map s) with
      | None => None
      | Some (ds, m) => Some (mkw ds m (w_arg s) (w_faces s) (w_words s) (w_len s), face_of (length (w_defs s)))
      end
  end.
(** apply_face (214-224): [k] positions are left up to the length. *)
Definition set_nth (l : bytes) (i : nat) (f : byte) : bytes := firstn i l ++ match skipn i l with [] => [] | _ :: r => f :: r end.
Fixpoint apply_loop (k : nat) (faces : bytes) (start : nat) (len : N) (f : byte) (overwrite : bool) : bytes :=
  match k with
  | 0 => faces
  | S k => if N.eqb len 0 then faces
           else apply_loop k (if overwrite || Ascii.eqb (nth start faces NUL) FACE_SPACE then set_nth faces start f else faces)
                           (S start) (len - 1) f overwrite
  end.
Definition apply_faces (n : nat) (faces : option bytes) (start len : N) (f : byte) (overwrite : bool) : option bytes :=
  match faces with
  | None => None
  | Some l => Some (if N.leb (N.of_nat n) start then l else apply_loop (n - N.to_nat start) l (N.to_nat start) len f overwrite)
  end.
Definition apply_face (s : wc) (words : bool) (start len : N) (f : byte) (overwrite : bool) : wc :=
  if words then mkw (w_defs s) (w_map s) (w_arg s) (w_faces s) (apply_faces (w_len s) (w_words s) start len f overwrite) (w_len s)
  else mkw (w_defs s) (w_map s) (w_arg s) (apply_faces (w_len s) (w_faces s) start len f overwrite) (w_words s) (w_len s).

(** The conversion of int32 to uint32 *)
Definition u32 (z : Z) : N := Z.to_N (z mod 4294967296).
(** lua_word_classifications::apply_color (140-156); start and length are int32 *)
Definition apply_color (s : wc) (start len : Z) (color : bytes) (overwrite : bool) : option wc :=
  match ensure_face s color with
  | None => None
  | Some (s', f) => if Ascii.eqb f NUL then Some s' else Some (apply_face s' false (u32 (start - 1)) (u32 len) f overwrite)
  end.
(** lua_word_classifications::classify_word (70-112) for a word of the line; [command]: it is the command word *)
Definition class_face (c : option byte) : byte :=
  match c with
  | Some c => if existsb (Ascii.eqb c) (lit "ouxcdafn") then c else "o"%char
  | None => "o"%char
  end.
Definition classify_word (s : wc) (start len : N) (command : bool) (class : bytes) (overwrite : bool) : wc :=
  let has_m := match class with c :: _ => Ascii.eqb c "m" | [] => false end in
  let rest := if has_m then tl class else class in
  let face := if has_m && command && w_arg s then FACE_ARGMATCHER else class_face (hd_error rest) in
  apply_face s true start len face overwrite.
(** equals (130-177) without what is recorded for tests *)
Fixpoint strncmp_eq (a b : bytes) (n : nat) : bool :=
  match n with
  | 0 => true
  | S n => match a, b with
           | x :: a, y :: b => Ascii.eqb x y && (Ascii.eqb x NUL || strncmp_eq a b n)
           | _, _ => true (* not reached: the arrays have the length *)
           end
  end.
Fixpoint defs_eq (a b : list bytes) : bool :=
  match a, b with
  | [], [] => true
  | x :: a, y :: b => eqb_bytes x y && defs_eq a b
  | _, _ => false
  end.
Definition equals (s t : wc) : bool :=
  match w_faces s, w_words s, w_faces t, w_words t with
  | None, None, None, None => true
  | Some f1, Some w1, Some f2, Some w2 =>
      (length (w_defs s) =? length (w_defs t)) && (w_len s =? w_len t) &&
      strncmp_eq f1 f2 (w_len s) && strncmp_eq w1 w2 (w_len s) && defs_eq (w_defs s) (w_defs t)
  | _, _, _, _ => false
  end.
