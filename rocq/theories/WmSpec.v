(** What the patterns of path.fnmatch mean: a pattern is read as a list of items ([writes]), and which texts the items match is
    said by [matches].  Nothing of this uses the matching algorithm. *)
From Verif Require Import Base WmModel.
Local Open Scope N_scope.

Inductive elem := One (c : N) | Range (a b : N) | Class (k : class).
Inductive item :=
| Lit (c : N)                           (* c, or \c *)
| Any                                   (* ? *)
| Star                                  (* * *)
| Set_ (negated : bool) (es : list elem)   (* [...] or [!...] *)
| Rest                                  (* ** at the end behind a slash *)
| Dirs.                                 (* **/ at the beginning or behind a slash *)

(** ** How items are written *)
Section Writes.
Variable f : flags.
Definition special (c : N) : Prop := c = 63 \/ c = 42 \/ c = 91 \/ (c = 92 /\ escape f = true).
(** A character inside brackets *)
Definition writes_one (c : N) (b : text) : Prop :=
  c <> 0 /\ ((b = [c] /\ ~ (c = 92 /\ escape f = true)) \/ (b = [92; c] /\ escape f = true)).
Definition class_name (k : class) : string :=
  match k with
  | Calnum => "alnum" | Calpha => "alpha" | Cblank => "blank" | Ccntrl => "cntrl" | Cdigit => "digit" | Cgraph => "graph"
  | Clower => "lower" | Cprint => "print" | Cpunct => "punct" | Cspace => "space" | Cxdigit => "xdigit" | Cupper => "upper"
  end.
Definition bytes_of (s : string) : text := map N_of_ascii (list_ascii_of_string s).
(** The inside of brackets with the bracket at its end; a bracket right at the beginning stands for itself. *)
Inductive writes_elems : bool -> list elem -> text -> Prop :=
| E_end : writes_elems false [] [93]
| E_one first c b es t : writes_one c b -> (b = [93] -> first = true) -> ~ (c = 91 /\ hd 0 t = 58) ->
    ~ (hd 0 t = 45 /\ hd 93 (tl t) <> 93) -> writes_elems false es t -> writes_elems first (One c :: es) (b ++ t)
| E_range first a b x y es t : writes_one a x -> writes_one b y -> (x = [93] -> first = true) -> y <> [93] -> a <> 91 -> b <> 91 ->
    writes_elems false es t -> writes_elems first (Range a b :: es) (x ++ 45 :: y ++ t)
| E_class first k es t : writes_elems false es t -> writes_elems first (Class k :: es) ([91; 58] ++ bytes_of (class_name k) ++ [58; 93] ++ t).
Definition writes_set (negated : bool) (es : list elem) (b : text) : Prop :=
  if negated then exists c t, b = c :: t /\ (c = 33 \/ c = 94) /\ writes_elems true es t
  else writes_elems true es b /\ hd 0 b <> 33 /\ hd 0 b <> 94.

(** [writes pl ps p]: the items [ps] are written as [p] at the place [pl] of a pattern. *)
Inductive place := beginning | behind_slash | elsewhere.
Definition after (c : N) : place := if c =? 47 then behind_slash else elsewhere.
Inductive writes : place -> list item -> text -> Prop :=
| P_end sl : writes sl [] []
| P_lit sl c ps p : c <> 0 -> ~ special c -> writes (after c) ps p -> writes sl (Lit c :: ps) (c :: p)
| P_escaped sl c ps p : c <> 0 -> escape f = true -> writes (after c) ps p -> writes sl (Lit c :: ps) (92 :: c :: p)
| P_any sl ps p : writes elsewhere ps p -> writes sl (Any :: ps) (63 :: p)
| P_star sl ps p : (wildstar f = true -> hd 0 p <> 42) -> writes elsewhere ps p -> writes sl (Star :: ps) (42 :: p)
| P_set sl neg es b ps p : writes_set neg es b -> writes elsewhere ps p -> writes sl (Set_ neg es :: ps) (91 :: b ++ p)
| P_rest n : wildstar f = true -> writes behind_slash [Rest] (42 :: 42 :: repeat 42 n)
| P_dirs sl ps p n : sl <> elsewhere -> wildstar f = true -> ~ (hd 0 p = 42 /\ hd 0 (tl p) = 42) -> writes behind_slash ps p ->
    writes sl (Dirs :: ps) (42 :: 42 :: repeat 42 n ++ 47 :: p).
End Writes.

(** ** What they match *)
Section Matches.
Variable high : class -> N -> bool.
Variable f : flags.
Definition slash (d : N) : Prop := d = 47 \/ (slashfold f = true /\ d = 92).
Definition lower_case (c : N) : N := if (65 <=? c) && (c <=? 90) then c + 32 else c.
Definition upper_case (c : N) : N := if (97 <=? c) && (c <=? 122) then c - 32 else c.
(** The character [d] matches the literal [c]. *)
Definition alike (c d : N) : Prop := c = d \/ (casefold f = true /\ lower_case c = lower_case d) \/ (c = 47 /\ slash d).

Definition letter (c : N) : Prop := 65 <= c <= 90 \/ 97 <= c <= 122.
Definition digit_ (c : N) : Prop := 48 <= c <= 57.
Definition space_ (c : N) : Prop := 9 <= c <= 13 \/ c = 32.
Definition print_ (c : N) : Prop := 32 <= c <= 126.
(** The documented classes (path_api.cpp 289-303) *)
Definition in_class (k : class) (c : N) : Prop :=
  (128 <= c /\ high k c = true) \/
  (c < 128 /\
   match k with
   | Calnum => letter c \/ digit_ c
   | Calpha => letter c
   | Cblank => c = 32 \/ c = 9
   | Ccntrl => c <= 31 \/ c = 127
   | Cdigit => digit_ c
   | Cgraph => print_ c /\ ~ space_ c
   | Clower => 97 <= c <= 122
   | Cprint => print_ c
   | Cpunct => print_ c /\ ~ space_ c /\ ~ letter c /\ ~ digit_ c
   | Cspace => space_ c
   | Cxdigit => digit_ c \/ 97 <= lower_case c <= 102
   | Cupper => 65 <= c <= 90
   end).
(** A character as brackets see it *)
Definition seen (d x : N) : Prop := (slash d /\ x = 47) \/ (~ slash d /\ x = if casefold f then lower_case d else d).
Definition folded (c : N) : N := if casefold f then lower_case c else c.
(** Bytes are ordered as signed numbers. *)
Definition signed (c : N) : Z := if c <? 128 then Z.of_N c else (Z.of_N c - 256)%Z.
Definition between (a b x : N) : Prop := (signed a <= signed x <= signed b)%Z.
(** Whether [x] (as seen) belongs to an element.  A single character is not folded (see the refutation). *)
Definition in_elem (x : N) (e : elem) : Prop :=
  match e with
  | One c => c = x
  | Range a b => between (folded a) (folded b) x \/ between (folded b) (folded a) x
  | Class Cupper => in_class Cupper (if casefold f then upper_case x else x)
  | Class k => in_class k x
  end.
Definition slash_elem (e : elem) : Prop := match e with One c => c = 47 | Range a _ => a = 47 | Class _ => False end.
Definition in_set (negated : bool) (es : list elem) (d : N) : Prop :=
  exists x, seen d x /\ (pathname f = true -> ~ Exists slash_elem es) /\
            if negated then ~ Exists (in_elem x) es else Exists (in_elem x) es.

(** [matches per lead ps s]: [per]: periods count; [lead]: at the beginning of the text or, with pathname, behind a slash. *)
Definition hidden (per lead : bool) (s : text) : Prop := per = true /\ lead = true /\ hd 0 s = 46.
Definition behind (d : N) (lead : bool) : Prop := lead = true <-> pathname f = true /\ slash d.
Inductive matches : bool -> bool -> list item -> text -> Prop :=
| M_end per ld : matches per ld [] []
| M_tail per ld d s : leading_dir f = true -> slash d -> matches per ld [] (d :: s)
| M_lit per ld ld' c d ps s : alike c d -> behind d ld' -> matches per ld' ps s -> matches per ld (Lit c :: ps) (d :: s)
| M_any per ld ld' d ps s : (pathname f = true -> ~ slash d) -> ~ hidden per ld (d :: s) -> behind d ld' ->
    matches per ld' ps s -> matches per ld (Any :: ps) (d :: s)
| M_set per ld ld' d neg es ps s : (pathname f = true -> ~ slash d) -> ~ hidden per ld (d :: s) -> in_set neg es d -> behind d ld' ->
    matches per ld' ps s -> matches per ld (Set_ neg es :: ps) (d :: s)
(** Behind a star periods no longer count (see the refutation). *)
| M_star per ld t ps s : ~ hidden per ld (t ++ s) -> (pathname f = true -> Forall (fun d => ~ slash d) t) -> matches false false ps s ->
    matches per ld (Star :: ps) (t ++ s)
| M_rest per ld s : matches per ld [Rest] s
| M_here per ld ps s : matches per true ps s -> matches per ld (Dirs :: ps) s
| M_dirs per ld t d ps s : slash d -> matches per true ps s -> matches per ld (Dirs :: ps) (t ++ d :: s).
End Matches.

(** WM_WILDSTAR brings WM_PATHNAME with it. *)
Definition effective (f : flags) : flags :=
  mkf (escape f) (pathname f || wildstar f) (period f) (leading_dir f) (casefold f) (wildstar f) (slashfold f).
(** What the match of a whole text is *)
Definition accepted (high : class -> N -> bool) (f : flags) (ps : list item) (s : text) : Prop :=
  matches high (effective f) (period f) true ps s.
