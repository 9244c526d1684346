(** What the coloring of the input line is expected to do. *)
From Verif Require Import Base FaceModel.
From Verif Require SettingsSpec.

(** What happens to a line: it is started (with the colors known so far, or none), words are classified, colors applied,
    history expansions marked, all of it shown plainly, and it is finished. *)
Inductive op :=
| Init (n : nat) (keep arg : bool)
| Color (start len : Z) (code : bytes) (overwrite : bool)
| Word (start len : N) (command : bool) (class : bytes) (overwrite : bool)
| Expansion (start len : N) (second : bool)
| Plain
| Finish.
Definition step (s : wc) (o : op) : option wc :=
  match o with
  | Init n keep arg => init n (if keep then w_defs s else []) arg
  | Color start len code ow => apply_color s start len code ow
  | Word start len command class ow => Some (classify_word s start len command class ow)
  | Expansion start len second => Some (apply_face s false start len (if second then "?" else "!")%char true) (* line_editor_impl.cpp 183-190 *)
  | Plain => Some (apply_face s false 0 (N.of_nat (w_len s)) "0"%char true) (* line_editor_impl.cpp 1213 *)
  | Finish => Some (finish s)
  end.
Fixpoint run (s : wc) (os : list op) : option wc :=
  match os with [] => Some s | o :: r => match step s o with None => None | Some s' => run s' r end end.

(** How a character looks: in a color code, or in one of the standard faces. *)
Inductive look := Code (c : bytes) | Face (f : byte).
Definition looks (s : wc) (f : byte) : look := match get_face_output s f with Some c => Code c | None => Face f end.

(** A part of the line that is to look some way; on the layer for words, or on the one above it. *)
Record mark := mkm { m_words : bool; m_from : Z; m_count : Z; m_look : look; m_over : bool }.
Definition class_look (arg : bool) (command : bool) (class : bytes) : look :=
  Face (match class with
        | "m"%char :: r => if command && arg then "m"%char else match r with
                           | c :: _ => if in_dec ascii_dec c (lit "ouxcdafn") then c else "o"%char
                           | [] => "o"%char end
        | c :: _ => if in_dec ascii_dec c (lit "ouxcdafn") then c else "o"%char
        | [] => "o"%char
        end).
Definition mark_of (n : nat) (arg : bool) (o : op) : list mark :=
  match o with
  | Color start len code ow => [mkm false (start - 1) len (Code code) ow]
  | Word start len command class ow => [mkm true (Z.of_N start) (Z.of_N len) (class_look arg command class) ow]
  | Expansion start len second => [mkm false (Z.of_N start) (Z.of_N len) (Face (if second then "?" else "!")%char) true]
  | Plain => [mkm false 0 (Z.of_nat n) (Face "0"%char) true]
  | _ => []
  end.
Definition covers (m : mark) (pos : nat) : bool := (m_from m <=? Z.of_nat pos)%Z && (Z.of_nat pos <? m_from m + m_count m)%Z.
(** The last mark that overwrites, or else the first. *)
Definition on_layer (ms : list mark) (words : bool) (pos : nat) : option look :=
  let l := filter (fun m => Bool.eqb (m_words m) words && covers m pos) ms in
  match find m_over (rev l) with Some m => Some (m_look m) | None => option_map m_look (hd_error l) end.
Definition expected (ms : list mark) (pos : nat) : look :=
  match on_layer ms false pos with
  | Some l => l
  | None => match on_layer ms true pos with Some l => l | None => Face SPC end
  end.

(** Numbers are as Lua and the editor hand them over; colors start in the line and cover a part that is not negative. *)
Definition op_ok (o : op) : Prop :=
  match o with
  | Color start len code _ => (1 <= start < 2147483648 /\ 0 <= len < 2147483648)%Z /\ code <> []
  | _ => True
  end.
Definition in_line (o : op) : bool := match o with Init _ _ _ | Finish => false | _ => true end.
Definition codes (os : list op) : list bytes := flat_map (fun o => match o with Color _ _ c _ => [c] | _ => [] end) os.
(** No two codes differ in letter case only (codes are made of digits and semicolons). *)
Definition no_case (cs : list bytes) : Prop := forall a b, In a cs -> In b cs -> SettingsSpec.alike a b -> a = b.
Definition code_dec : forall a b : bytes, {a = b} + {a <> b} := list_eq_dec ascii_dec.
Definition few (cs : list bytes) : Prop := length (nodup code_dec cs) <= 100.
