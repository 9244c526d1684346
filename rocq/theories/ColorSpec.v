(** What colour texts mean, stated without the model's functions. *)
From Verif Require Import Base.

(** ** Colours and attributes *)
Inductive col := Dflt | Named (bright : bool) (i : nat) | Rgb (r g b : N).
Record attrs := mka { a_rev : bool; a_bold : option bool; a_ital : bool; a_und : bool; a_fg : option col; a_bg : option col }.

Definition valid_col (c : col) : Prop :=
  match c with Dflt => True | Named _ i => i < 8 | Rgb r g b => (r < 256)%N /\ (g < 256)%N /\ (b < 256)%N end.
Definition valid (a : attrs) : Prop :=
  (forall c, a_fg a = Some c -> valid_col c) /\ (forall c, a_bg a = Some c -> valid_col c).
(** No explicit default. *)
Definition plain (a : attrs) : Prop := a_fg a <> Some Dflt /\ a_bg a <> Some Dflt.

(** The numbers of SGR: ECMA-48, and 38;2;r;g;b. *)
Definition col_numbers (base : N) (c : col) : list N :=
  match c with
  | Dflt => [base + 9]
  | Named b i => [base + N.of_nat i + (if b then 60 else 0)]
  | Rgb r g b => [base + 8; 2; r; g; b]
  end%N.
Definition opt {A B} (o : option A) (f : A -> list B) : list B := match o with Some x => f x | None => [] end.
Definition numbers (a : attrs) : list N :=
  0%N :: (if a_rev a then [7%N] else []) ++ opt (a_bold a) (fun b => [if b then 1%N else 22%N]) ++
  (if a_ital a then [3%N] else []) ++ (if a_und a then [4%N] else []) ++
  opt (a_fg a) (col_numbers 30) ++ opt (a_bg a) (col_numbers 40).

Fixpoint join (sep : bytes) (l : list bytes) : bytes :=
  match l with [] => [] | [x] => x | x :: r => x ++ sep ++ join sep r end.
Definition code (a : attrs) : bytes := join (lit ";") (map dec (numbers a)).

(** The words. *)
Definition colour_word (i : nat) : bytes :=
  match i with
  | 0 => lit "black" | 1 => lit "red" | 2 => lit "green" | 3 => lit "yellow"
  | 4 => lit "blue" | 5 => lit "magenta" | 6 => lit "cyan" | _ => lit "white"
  end.
Definition hex_digit (n : N) : byte := nth (N.to_nat n) (lit "0123456789ABCDEF") "0"%char.
Definition hex_byte (n : N) : bytes := [hex_digit (n / 16); hex_digit (n mod 16)].
Definition col_words (c : col) : list bytes :=
  match c with
  | Dflt => [lit "default"]
  | Named b i => (if b then [lit "bright"] else []) ++ [colour_word i]
  | Rgb r g b => [lit "#" ++ hex_byte r ++ hex_byte g ++ hex_byte b]
  end.
Definition words (a : attrs) : list bytes :=
  (if a_rev a then [lit "reverse"] else []) ++ opt (a_bold a) (fun b => [if b then lit "bold" else lit "nobold"]) ++
  (if a_ital a then [lit "italic"] else []) ++ (if a_und a then [lit "underline"] else []) ++
  opt (a_fg a) col_words ++ opt (a_bg a) (fun c => lit "on" :: col_words c).

(** ** What a terminal makes of the numbers *)
Record screen := mks { s_rev : bool; s_bold : bool; s_ital : bool; s_und : bool; s_fg : col; s_bg : col; s_other : list N }.
Definition reset : screen := mks false false false false Dflt Dflt [].
Definition col_of (base n : N) : option col :=
  if ((base <=? n) && (n <? base + 8))%N then Some (Named false (N.to_nat (n - base)))
  else if ((base + 60 <=? n) && (n <? base + 68))%N then Some (Named true (N.to_nat (n - base - 60)))
  else if (n =? base + 9)%N then Some Dflt else None.
Definition set_fg (s : screen) (c : col) : screen := mks (s_rev s) (s_bold s) (s_ital s) (s_und s) c (s_bg s) (s_other s).
Definition set_bg (s : screen) (c : col) : screen := mks (s_rev s) (s_bold s) (s_ital s) (s_und s) (s_fg s) c (s_other s).
(** Other numbers are only noted. *)
Definition other (s : screen) (n : N) : screen :=
  mks (s_rev s) (s_bold s) (s_ital s) (s_und s) (s_fg s) (s_bg s) (s_other s ++ [n]).
Definition one (s : screen) (n : N) : screen :=
  if (n =? 0)%N then reset
  else if (n =? 7)%N then mks true (s_bold s) (s_ital s) (s_und s) (s_fg s) (s_bg s) (s_other s)
  else if (n =? 1)%N then mks (s_rev s) true (s_ital s) (s_und s) (s_fg s) (s_bg s) (s_other s)
  else if (n =? 22)%N then mks (s_rev s) false (s_ital s) (s_und s) (s_fg s) (s_bg s) (s_other s)
  else if (n =? 3)%N then mks (s_rev s) (s_bold s) true (s_und s) (s_fg s) (s_bg s) (s_other s)
  else if (n =? 4)%N then mks (s_rev s) (s_bold s) (s_ital s) true (s_fg s) (s_bg s) (s_other s)
  else match col_of 30 n with
       | Some c => set_fg s c
       | None => match col_of 40 n with Some c => set_bg s c | None => other s n end
       end.
Fixpoint shows (s : screen) (ns : list N) : screen :=
  match ns with
  | [] => s
  | 38%N :: 2%N :: r :: g :: b :: rest => shows (set_fg s (Rgb r g b)) rest
  | 48%N :: 2%N :: r :: g :: b :: rest => shows (set_bg s (Rgb r g b)) rest
  | n :: rest => shows (one s n) rest
  end.

(** The numbers of a parameter string, when none is left out. *)
Fixpoint fields_from (l cur : bytes) : list bytes :=
  match l with
  | [] => [cur]
  | c :: r => if Ascii.eqb c ";" then cur :: fields_from r [] else fields_from r (cur ++ [c])
  end.
Definition sgr_numbers (l : bytes) (ns : list N) : Prop :=
  Forall2 (fun f n => f <> [] /\ forallb is_digit f = true /\ undec 0 f = n) (fields_from l []) ns.

(** A text that gives its code directly: its first word is "sgr" or "ansi", in any case. *)
Definition lower_case (c : byte) : byte :=
  if (65 <=? N_of_ascii c)%N && (N_of_ascii c <=? 90)%N then ascii_of_N (N_of_ascii c + 32) else c.
Definition raw (v : bytes) : Prop :=
  exists blanks w rest, v = blanks ++ w ++ rest /\ Forall (fun c => c = SPC) blanks /\
    (map lower_case w = lit "sgr" \/ map lower_case w = lit "ansi") /\ (rest = [] \/ exists r, rest = SPC :: r).

(** The text for a set of attributes without explicit defaults: an absent foreground before a background is called "default",
    as is the absence of everything. *)
Definition describe (a : attrs) : bytes :=
  match words a with
  | [] => lit "default"
  | _ => match a_fg a, a_bg a with
         | None, Some c => join [SPC] (words (mka (a_rev a) (a_bold a) (a_ital a) (a_und a) (Some Dflt) (Some c)))
         | _, _ => join [SPC] (words a)
         end
  end.
Definition has_rgb (a : attrs) : Prop :=
  (exists r g b, a_fg a = Some (Rgb r g b)) \/ (exists r g b, a_bg a = Some (Rgb r g b)).
