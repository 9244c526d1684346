(** What splitting a line into commands and words is expected to do, stated without the model's functions. *)
From Verif Require Import Base DoskeySpec.

Definition BAR : byte := "|"%char.
Definition AMP : byte := "&"%char.

(** ** Double quotes and ^ *)
Inductive place := Plain | Quoted | Escaped.
Definition step (p : place) (c : byte) : place :=
  match p with
  | Plain => if Ascii.eqb c DQ then Quoted else if Ascii.eqb c "^" then Escaped else Plain
  | Quoted => if Ascii.eqb c DQ then Plain else Quoted
  | Escaped => Plain
  end.
(** Where one is behind the text [l]. *)
Definition place_after (l : bytes) : place := fold_left step l Plain.

(** ** Redirections *)
Definition sign (c : byte) : Prop := c = "<"%char \/ c = ">"%char.
Definition white (c : byte) : Prop := In c [SPC; TAB; NUL].
Definition a_digit (c : byte) : Prop := In c (lit "0123456789").

(** Right behind a redirection sign, or behind the & or the digit of one such as 2>&1. *)
Definition behind_redirection (l : bytes) : Prop :=
  exists a s h, l = a ++ s :: h /\ sign s /\ (h = [] \/ h = [AMP] \/ exists d, a_digit d /\ h = [AMP; d]).

(** Behind a digit and <, <<, > or >>. *)
Definition behind_numbered_sign (l : bytes) : Prop :=
  exists a d s, a_digit d /\ sign s /\ (l = a ++ [d; s] \/ l = a ++ [d; s; s]).

(** Within the argument of a redirection: after its sign and at most one blank there is no blank outside of quotes. *)
Definition in_redirection_arg (l : bytes) : Prop :=
  exists a s h o b, l = a ++ s :: h ++ o ++ b /\ sign s /\
    (h = [] \/ h = [AMP] \/ exists d, a_digit d /\ h = [AMP; d]) /\
    (o = [] \/ exists c, white c /\ o = [c]) /\
    (forall b1 c b2, b = b1 ++ c :: b2 -> white c -> place_after (a ++ s :: h ++ o ++ b1) = Quoted).

(** ** Where a command ends *)

(** There is some text of a command: a character (its first byte), outside of quotes, that is not a separator and not
    the beginning of a redirection's argument. *)
Definition has_text (l : bytes) : Prop :=
  exists a c b, l = a ++ c :: b /\ place_after a = Plain /\
    ~ In c (lit "@ =;,(&|<>" ++ [TAB; NUL]) /\ ~ (128 <= N_of_ascii c < 192)%N /\ ~ behind_redirection a.

(** Nothing but blanks, ( and @, and redirections. *)
Definition no_command_yet (l : bytes) : Prop :=
  forall a c b, l = a ++ c :: b -> In c (lit " (@<>" ++ [TAB]) \/ in_redirection_arg a.

(** A rem command: the word rem, in any case, before any other text, and a delimiter behind it.  (When there is a ^
    nothing is said.) *)
Definition rem_command (l : bytes) : Prop :=
  In "^"%char l \/
  exists p r e m d q, l = p ++ [r; e; m] ++ d :: q /\ no_command_yet p /\
    In r (lit "rR") /\ In e (lit "eE") /\ In m (lit "mM") /\ In d (lit "&(=+[]\|;:,.<>/ " ++ [TAB]).

(** The separator [c] behind [l] does not end the command: because there is no command text yet (when the command does
    not begin with a macro's name), because it is the & of a redirection like 2>&1, or because of rem. *)
Definition no_end (macro : bool) (l : bytes) (c : byte) : Prop :=
  (macro = false /\ ~ has_text l) \/ (c = AMP /\ behind_numbered_sign l) \/ rem_command l.

(** Behind a number and a redirection sign, at the beginning or behind a blank: an & here never ends the command. *)
Definition fresh (l : bytes) : Prop := l = [] \/ exists a w, l = a ++ [w] /\ white w /\ place_after a = Plain.
Definition numbered (l : bytes) : Prop := exists a d s, l = a ++ [d; s] /\ fresh a /\ a_digit d /\ sign s.

(** [u] is not to be split. *)
Definition one_command (macro : bool) (u : bytes) : Prop :=
  forall a c b, u = a ++ c :: b -> c = AMP \/ c = BAR -> place_after a = Plain -> no_end macro a c.

Section Commands.
Variable lookup : bytes -> option bytes.

(** The first word of [l], up to a blank, is a macro's name [w]. *)
Definition macro_first (l w : bytes) : Prop :=
  exists r, l = w ++ r /\ w <> [] /\ (forall c, In c w -> c <> SPC /\ c <> TAB) /\
    (r = [] \/ exists r', r = SPC :: r' \/ r = TAB :: r') /\ lookup w <> None.

(** [t] up to a separator or the end of line ([rest]) is one command. *)
Definition command_text (t rest : bytes) : Prop :=
  exists w u, t = w ++ u /\
    (macro_first (t ++ rest) w \/ (w = [] /\ forall w', ~ macro_first (t ++ rest) w')) /\
    one_command (negb (match w with [] => true | _ => false end)) u /\
    (rest = [] \/ exists c r, rest = c :: r /\ (c = AMP \/ c = BAR) /\ place_after u = Plain /\ ~ (c = AMP /\ numbered u)).

(** What is before a command: opening parentheses (unless a macro's name begins with one), or one space. *)
Definition lead (first : bool) (l p : bytes) : Prop :=
  (opened l p /\ (p <> [] \/ first = true \/ forall r, l <> SPC :: r)) \/
  (p = [SPC] /\ opened l [] /\ first = false) \/
  (p = [] /\ exists w, macro_first l ("("%char :: w)).

Definition separator (first : bool) (s : bytes) (rest : bytes) : Prop :=
  if first then s = []
  else s = [AMP; AMP] \/ s = [BAR; BAR] \/ (s = [AMP] /\ forall r, rest <> AMP :: r) \/ (s = [BAR] /\ forall r, rest <> BAR :: r).

(** The line from [at_] on consists of the commands at these offsets and with these lengths. *)
Inductive split_into : bool -> nat -> bytes -> list (nat * nat) -> Prop :=
| s_end first o : split_into first o [] []
| s_command first o sep pre text close rest l :
    separator first sep (pre ++ text ++ close ++ rest) ->
    lead first (pre ++ text ++ close ++ rest) pre ->
    closed (count "(" pre) (text ++ close) text close ->
    command_text (text ++ close) rest ->
    split_into false (o + length sep + length pre + length text + length close) rest l ->
    split_into first o (sep ++ pre ++ text ++ close ++ rest) ((o + length sep + length pre, length text) :: l).
End Commands.

(** ** Spans of a text, with gaps only of certain bytes *)
Inductive spans (gap : byte -> Prop) : nat -> bytes -> list (nat * nat) -> Prop :=
| sp_end o g : Forall gap g -> spans gap o g []
| sp_cons o g t rest l : Forall gap g -> spans gap (o + length g + length t) rest l ->
    spans gap o (g ++ t ++ rest) ((o + length g, length t) :: l).

(** ** Words *)

(** What may be between words: delimiters, redirections, and a ^ before a blank. *)
Definition between (c : byte) : Prop := In c (lit "@ =;,('`+)[]{}<>&^0123456789" ++ [TAB; LF; NUL]).

(** The gap ends with a redirection sign, but for delimiters behind it. *)
Definition behind_sign (g : bytes) : Prop :=
  exists a s b, g = a ++ s :: b /\ sign s /\ Forall (fun c => In c (lit " @=;,(^" ++ [TAB])) b.

(** A word [t] with [rest] behind it: no blank outside of quotes (in the argument of a redirection also not behind ^),
    not ended within quotes or behind ^, and not ended before an ordinary character. *)
Definition word_text (redir_arg : bool) (t rest : bytes) : Prop :=
  (forall a c b, t = a ++ c :: b -> white c ->
     place_after a = Quoted \/ (redir_arg = true /\ place_after a = Escaped)) /\
  (rest = [] \/ place_after t = Plain) /\
  (rest = [] \/ exists c r, rest = c :: r /\ (between c \/ In c (lit "/\:.|"))).

(** The text from [o] on consists of these words: offset, length, whether it is the argument of a redirection. *)
Inductive words_of : nat -> bytes -> list (nat * nat * bool) -> Prop :=
| w_end o g : Forall between g -> words_of o g []
| w_word o g t ra rest l : Forall between g -> (ra = true -> behind_sign g) -> word_text ra t rest ->
    words_of (o + length g + length t) rest l ->
    words_of o (g ++ t ++ rest) ((o + length g, length t, ra) :: l).
