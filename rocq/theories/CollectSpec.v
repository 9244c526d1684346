(** What collecting the words of a line is expected to do, stated without the collector's functions. *)
From Verif Require Import Base DoskeySpec CmdTokSpec CollectModel.

Notation BYTE l i := (nth i l NUL) (only parsing).
Definition text_of (line : bytes) (w : word) : bytes := firstn (n_ w) (skipn (o_ w) line).
Definition end_of (w : word) : nat := o_ w + n_ w.

(** The words are in order between [lo] and [hi]; a word may begin with the + that ends the word before it when there is a space before
    the +. *)
Definition behind (line : bytes) (lo o : nat) : Prop :=
  lo <= o \/ (S o = lo /\ BYTE line o = "+"%char /\ 1 <= o /\ BYTE line (o - 1) = SPC).
Fixpoint laid_out (line : bytes) (lo hi : nat) (ws : list word) : Prop :=
  match ws with
  | [] => lo <= hi
  | w :: r => behind line lo (o_ w) /\ lo <= end_of w /\ end_of w <= hi /\ laid_out line (end_of w) hi r
  end.

(** Every byte from [lo] to [hi] is in a word or is one of [gap]. *)
Definition covered (gap : byte -> Prop) (line : bytes) (lo hi : nat) (ws : list word) : Prop :=
  forall i, lo <= i < hi -> (exists w, In w ws /\ o_ w <= i < end_of w) \/ gap (BYTE line i).
(** Between words: what is between words of one command, and what is between commands. *)
Definition gap (c : byte) : Prop := between c \/ c = "|"%char.

(** The first word of a command is marked, the others are not. *)
Definition marked (g : list word) : Prop :=
  g = [] \/ exists w r, g = w :: r /\ command_word w = true /\ Forall (fun x => command_word x = false) r.
(** The words of the command at [o] of length [n] are within it. *)
Definition within (line : bytes) (o n : nat) (g : list word) : Prop :=
  marked g /\ laid_out line o (o + n) g /\ Forall (fun w => o <= o_ w) g.

(** The commands are in order, with a separator between two of them, and everything outside of them is a blank, @, a parenthesis or a
    separator. *)
Definition sep_byte (c : byte) : Prop := c = "&"%char \/ c = "|"%char.
Fixpoint in_order (line : bytes) (stop : nat) (first : bool) (lo : nat) (cs : list (nat * nat)) : Prop :=
  match cs with
  | [] => lo <= stop /\ (forall i, lo <= i < stop -> In (BYTE line i) (lit " @()&|")) /\ (lo = stop \/ BYTE line lo = ")"%char)
  | (o, n) :: r =>
      lo <= o /\ o + n <= stop /\ (forall i, lo <= i < o -> In (BYTE line i) (lit " @()&|")) /\
      (first = false -> exists j, lo <= j < o /\ sep_byte (BYTE line j)) /\ in_order line stop false (o + n) r
  end.

(** Where a doskey macro's name may be: at the beginning of the line, or (when enhanced) behind a separator and at most one space; not
    a space itself. *)
Definition alias_place (enhanced : bool) (line : bytes) (o : nat) : Prop :=
  BYTE line o <> SPC /\
  (firstn o line = [] \/
   (enhanced = true /\ exists a c s, firstn o line = a ++ c :: s /\ sep_byte c /\ (s = [] \/ s = [SPC]))).

(** The quotes of a word: the text [t] is shown as [u]. *)
Definition unquoted (t u : bytes) (q : bool) : Prop :=
  (q = false /\ u = t /\ (forall r, t <> DQ :: r)) \/
  (q = true /\ exists v, t = DQ :: v /\
     ((exists w, v = w ++ [DQ] /\ place_after (DQ :: w) = Quoted /\ u = w) \/
      (u = v /\ ~ exists w, v = w ++ [DQ] /\ place_after (DQ :: w) = Quoted))).

(** What a token becomes: a word of its own, but a flag (- or / and more) is split behind its first colon, and without a colon takes the
    equal signs behind it. *)
Definition flag (t : bytes) : Prop := exists c d r, t = c :: d :: r /\ (c = "-"%char \/ c = "/"%char).
Inductive pieces (cend : nat) (line : bytes) (old ra : bool) (o : nat) (t : bytes) : list (nat * nat * bool) -> Prop :=
| pc_plain : (ra = true \/ old = true \/ ~ flag t) -> pieces cend line old ra o t [(o, length t, ra)]
| pc_colon u v : ra = false -> old = false -> flag t -> t = u ++ ":"%char :: v -> ~ In ":"%char u ->
    pieces cend line old ra o t [(o, length u + 1, false); (o + length u + 1, length v, false)]
| pc_equal k : ra = false -> old = false -> flag t -> ~ In ":"%char t -> o + length t + k <= cend ->
    (forall i, i < k -> BYTE line (o + length t + i) = "="%char) ->
    (o + length t + k = cend \/ BYTE line (o + length t + k) <> "="%char) ->
    pieces cend line old ra o t [(o, length t + k, false)].

(** [name] is the text [t] up to a blank. *)
Definition is_blank (c : byte) : Prop := c = SPC \/ c = TAB.
Definition first_word (t name : bytes) : Prop :=
  exists r, t = name ++ r /\ Forall (fun c => ~ is_blank c) name /\ (r = [] \/ exists c r', r = c :: r' /\ is_blank c).
(** Which word of the command at [o] with the text [t] is marked as a macro: the first, when macros may be here and its text up to a
    blank is a macro's name. *)
Definition macro_word (alias : bytes -> bool) (here : Prop) (o : nat) (t : bytes) (ws : list word) : Prop :=
  (exists name r, here /\ first_word t name /\ name <> [] /\ alias name = true /\
     ws = mkw o (length name) true true false false false :: r /\ Forall (fun x => is_alias x = false) r) \/
  ((forall name, here -> first_word t name -> name <> [] -> alias name = false) /\ Forall (fun x => is_alias x = false) ws).

(** What taking the quotes away does to a word *)
Definition stripped (line : bytes) (w w' : word) : Prop :=
  command_word w' = command_word w /\ is_alias w' = is_alias w /\ redir w' = redir w /\ builtin w' = builtin w /\
  (if Nat.eqb (n_ w) 0 || is_alias w then w' = w else unquoted (text_of line w) (text_of line w') (quoted w')).

(** What the tokens of a command become: a + right before a token and behind a space belongs to it. *)
Definition takes_plus (line : bytes) (o : nat) : Prop := 2 <= o /\ BYTE line (o - 1) = "+"%char /\ BYTE line (o - 2) = SPC.
Inductive become (line : bytes) (cend : nat) (old : bool) (base : nat) : list (nat * nat * bool) -> list (nat * nat * bool) -> Prop :=
| bc_nil : become line cend old base [] []
| bc_cons o n ra ts p xs ys :
    ((takes_plus line (base + o) /\ S p = base + o) \/ (~ takes_plus line (base + o) /\ p = base + o)) ->
    pieces cend line old ra p (firstn (base + o + n - p) (skipn p line)) xs ->
    become line cend old base ts ys -> become line cend old base ((o, n, ra) :: ts) (xs ++ ys).
