(** What doskey macro expansion is expected to do, stated without the model's functions. *)
From Verif Require Import Base.

Definition DQ : byte := """"%char.
Definition count (c : byte) (l : bytes) : nat := length (filter (Ascii.eqb c) l).

(** ** Macro texts: characters and $x tags *)

Inductive piece := Ch (c : byte) | Tag (t : byte).
Definition spell1 (p : piece) : bytes := match p with Ch c => [c] | Tag t => ["$"%char; t] end.
Definition spell (ps : list piece) : bytes := concat (map spell1 ps).

(** The macro text [m] reads as [ps]; a $ at the very end is ignored. *)
Definition reads (m : bytes) (ps : list piece) : Prop :=
  (forall c, In (Ch c) ps -> c <> "$"%char) /\ (m = spell ps \/ m = spell ps ++ ["$"%char]).

Definition argument (ws : list bytes) (n : nat) : bytes := nth (n - 1) ws [].

(** The meaning of a piece; [ws] are the arguments and [star] the text $* stands for. *)
Inductive means (ws : list bytes) (star : bytes) : piece -> bytes -> Prop :=
| m_char c : means ws star (Ch c) [c]
| m_dollar : means ws star (Tag "$") ["$"%char]
| m_gt t : In t (lit "gG") -> means ws star (Tag t) [">"%char]
| m_lt t : In t (lit "lL") -> means ws star (Tag t) ["<"%char]
| m_bar t : In t (lit "bB") -> means ws star (Tag t) ["|"%char]
| m_line t : In t (lit "tT") -> means ws star (Tag t) [LF]
| m_arg n : 1 <= n <= 9 -> means ws star (Tag (digit (N.of_nat n))) (argument ws n)
| m_star : means ws star (Tag "*") star
| m_other t : ~ In t (lit "$gGlLbBtT123456789*") -> means ws star (Tag t) ["$"%char; t].

Definition expansion (ws : list bytes) (star m out : bytes) : Prop :=
  exists ps outs, reads m ps /\ Forall2 (means ws star) ps outs /\ out = concat outs.

(** A tag for arguments within double quotes. *)
Definition arg_tag (p : piece) : Prop := exists t, p = Tag t /\ In t (lit "*123456789").
Definition quoted_arg (m : bytes) : Prop :=
  exists ps a p b, reads m ps /\ ps = a ++ p :: b /\ arg_tag p /\ Nat.Odd (count DQ (spell a)).

(** ** Arguments: words separated by spaces; when [q], spaces within double quotes do not separate *)

Definition inside (q : bool) (a : bytes) : Prop := q = true /\ Nat.Odd (count DQ a).
Definition blank (l : bytes) : Prop := Forall (fun c => c = SPC) l.
Definition word (q : bool) (w : bytes) : Prop :=
  w <> [] /\ (forall a b, w = a ++ SPC :: b -> inside q a).

Inductive args_of (q : bool) : list bytes -> bytes -> Prop :=
| args_nil sp : blank sp -> args_of q [] sp
| args_last sp w : blank sp -> word q w -> args_of q [w] (sp ++ w)
| args_cons sp w rest ws : blank sp -> word q w -> ~ inside q w ->
    args_of q ws (SPC :: rest) -> args_of q (w :: ws) (sp ++ w ++ SPC :: rest).

(** ** Commands *)

(** Parentheses opened before a command, with spaces and @ between them. *)
Definition opening (p : bytes) : Prop :=
  p = [] \/ exists q, Forall (fun c => In c (lit " @(")) q /\
                      (p = q ++ lit "(" \/ p = q ++ lit "( " \/ p = q ++ lit "(@").
Definition opened (c p : bytes) : Prop :=
  opening p /\ (exists r, c = p ++ r) /\ (forall p' r, c = p' ++ r -> opening p' -> length p' <= length p).

(** At most [n] closing parentheses at the end of a text, with spaces between and after them. *)
Definition closing (n : nat) (v : bytes) : Prop :=
  Forall (fun c => In c (lit " )")) v /\ count ")" v <= n /\ (v = [] \/ exists v', v = ")"%char :: v').
Definition closed (n : nat) (t u v : bytes) : Prop :=
  t = u ++ v /\ closing n v /\ (forall u' v', t = u' ++ v' -> closing n v' -> length v' <= length v).

Section Macros.
Variable lookup : bytes -> option bytes.

(** [c] calls the macro [text]: opening parentheses [pre], the name, closing parentheses right behind the name, and
    after spaces the rest. *)
Definition calls (c pre name close after text : bytes) : Prop :=
  exists gap,
    c = pre ++ name ++ close ++ gap ++ after /\
    opened c pre /\
    closed (count "(" pre) (name ++ close) name close /\
    name <> [] /\ ~ In SPC (name ++ close) /\
    blank gap /\ (gap = [] -> after = []) /\ (forall r, after <> SPC :: r) /\
    lookup name = Some text.

(** What a command becomes: the macro's expansion behind the opening parentheses (as many closing parentheses at the
    end as were opened are no arguments), or itself. *)
Inductive becomes : bytes -> bytes -> bool -> Prop :=
| b_macro c pre name close after text body tail ws out :
    calls c pre name close after text -> ~ quoted_arg text ->
    closed (count "(" pre) after body tail ->
    args_of true ws body ->
    expansion ws (match ws with [] => [] | _ => after end) text out ->
    becomes c (pre ++ out) true
| b_same c : (forall pre name close after text, ~ calls c pre name close after text) -> becomes c c false.

(** The command [c] calls the macro, and all of [rest] goes to its arguments too. *)
Definition whole (q : bool) (c rest out text : bytes) : Prop :=
  exists pre name close after ws e,
    calls c pre name close after text /\
    args_of q ws (after ++ rest) /\
    expansion ws (match ws with [] => [] | _ => after ++ rest end) text e /\
    out = pre ++ e.

(** ** Command separators: | and & outside double quotes, not after ^, and & not after > *)
Inductive place := Outside | Inside | Escaped | Redirect.
Definition plain_step (c : byte) : place :=
  if Ascii.eqb c DQ then Inside else if Ascii.eqb c "^" then Escaped
  else if Ascii.eqb c ">" then Redirect else Outside.
Definition step (p : place) (c : byte) : place :=
  match p with
  | Outside => plain_step c
  | Inside => if Ascii.eqb c DQ then Outside else Inside
  | Escaped => Outside
  | Redirect => if Ascii.eqb c "&" then Outside else plain_step c
  end.
Definition at_ (l : bytes) : place := fold_left step l Outside.
Definition separates (p : place) (c : byte) : Prop :=
  (p = Outside /\ (c = "|"%char \/ c = "&"%char)) \/ (p = Redirect /\ c = "|"%char).
Definition no_separator (l : bytes) : Prop := forall a c b, l = a ++ c :: b -> ~ separates (at_ a) c.

(** The command [c] ends with the separators and (one) space [d], and [rest] follows. *)
Definition ends (c d rest : bytes) : Prop :=
  no_separator c /\
  ((d = [] /\ rest = []) \/
   exists x ds sp, d = (x :: ds) ++ sp /\ separates (at_ c) x /\
     Forall (fun y => y = "|"%char \/ y = "&"%char) ds /\
     (forall y r, sp ++ rest = y :: r -> y <> "|"%char /\ y <> "&"%char) /\
     (sp = [SPC] \/ (sp = [] /\ forall r, rest <> SPC :: r))).

(** Every command of the line is dealt with on its own, except that a macro with an argument tag within quotes takes
    all that follows.  The flag tells whether there was a macro. *)
Inductive line_becomes : bytes -> bytes -> bool -> Prop :=
| l_end : line_becomes [] [] false
| l_command c d rest o out b b' :
    ends c d rest -> becomes c o b -> line_becomes rest out b' ->
    line_becomes (c ++ d ++ rest) (o ++ d ++ out) (b || b')
| l_quoted c d rest out text :
    ends c d rest -> quoted_arg text -> whole true c (d ++ rest) out text ->
    line_becomes (c ++ d ++ rest) out true.

(** Ordinary macro names. *)
Definition ordinary : Prop :=
  forall name text, lookup name = Some text ->
    (forall c, In c name -> ~ In c (lit "|&^>" ++ [DQ])) /\ (forall r, name <> "("%char :: r).
End Macros.

(** ** The lines of a result *)
Definition lines_of (l : bytes) (ls : list bytes) : Prop :=
  Forall (fun x => ~ In LF x) ls /\
  (l = concat (map (fun x => x ++ [LF]) ls) \/
   exists ls' x, ls = ls' ++ [x] /\ x <> [] /\ l = concat (map (fun x => x ++ [LF]) ls') ++ x).
