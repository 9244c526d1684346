(** Model of clink/lib/src/word_collector.cpp: which words of the line the completion, the hinter and the colouring see.
    Lines are well formed UTF-8 without NUL and shorter than 64 KiB (a word has 16 bits for its offset and its length), the cursor
    is at a character.  The tokenisers are those of CmdTokModel (the line editor's), the quote pair is a pair of double quotes.
    The delimiter kept with a word is not modelled.  The macros the tokeniser sees are [lookup], those the collector sees [alias];
    [deprecated] is has_deprecated_argmatcher, [enhanced] is doskey.enhanced, [dots] is match.translate_slashes being 1 or 3. *)
From Verif Require Import Base DoskeyModel CmdTokModel.

Record word := mkw { o_ : nat; n_ : nat; command_word : bool; is_alias : bool; redir : bool; quoted : bool; builtin : bool }.
Definition at_ (l : bytes) (i : nat) : byte := nth i l NUL.
Definition blank (c : byte) : bool := ceq c SPC || ceq c TAB.
(** How many characters from the beginning of [l] satisfy [f] *)
Fixpoint run (f : byte -> bool) (l : bytes) : nat := match l with c :: r => if f c then S (run f r) else 0 | [] => 0 end.

Section Collect.
Variable lookup : bytes -> option bytes.
Variable alias : bytes -> bool.
Variable deprecated : bytes -> bool.
Variables enhanced dots : bool.

(** is_alias_allowed (156-183): [before] is what precedes the offset, last byte first. *)
Fixpoint allowed_from (before : bytes) (spaces : nat) : bool :=
  match before with
  | [] => Nat.leb spaces 0
  | c :: r => if ceq c "&" || ceq c "|" then enhanced && Nat.leb spaces 1
              else if ceq c SPC then allowed_from r (S spaces) else false
  end.
Definition alias_allowed (line : bytes) (offset : nat) : bool :=
  if ceq (at_ line offset) SPC then false else allowed_from (rev (firstn offset line)) 0.

(** find_command_bounds (105-145), with a command tokeniser. *)
Fixpoint until (stop_at_cursor : bool) (cursor : nat) (cs : list (nat * nat)) : list (nat * nat) :=
  match cs with
  | [] => []
  | (o, n) :: r => (o, n) :: if stop_at_cursor && Nat.leb o cursor && Nat.leb cursor (o + n) then [] else until stop_at_cursor cursor r
  end.
Definition command_bounds (line : bytes) (cursor : nat) (stop_at_cursor : bool) : option (list (nat * nat * bool)) :=
  let line_stop := if stop_at_cursor then cursor else length line in
  match commands lookup enhanced (firstn line_stop line) with
  | None => None
  | Some [] => Some [(line_stop, 0, false)]
  | Some cs => Some (map (fun '(o, n) => (o, n, alias_allowed line o)) (until stop_at_cursor cursor cs))
  end.

(** The body of the loop over the tokens (267-343): a token at [o] (in the line) of length [n]. *)
Definition plus_word (line : bytes) (o n : nat) : nat * nat :=
  if Nat.leb 2 o && ceq (at_ line (o - 1)) "+" && ceq (at_ line (o - 2)) SPC then (o - 1, S n) else (o, n).
Definition token_words (line : bytes) (command_end : nat) (old_matcher first : bool) (o n : nat) (ra : bool) : list word :=
  let '(o, n) := plus_word line o n in
  let c := at_ line o in
  if negb ra && negb old_matcher && Nat.ltb 1 n && (ceq c "-" || ceq c "/") then
    let k := run (fun x => negb (ceq x ":")) (firstn n (skipn o line)) in
    if Nat.ltb k n
    then [mkw o (S k) first false false false false; mkw (o + S k) (n - S k) false false ra false false]
    else [mkw o (n + run (fun x => ceq x "=") (skipn (o + n) (firstn command_end line))) first false ra false false]
  else [mkw o n first false ra false false].
Fixpoint all_tokens (line : bytes) (command_end base : nat) (old_matcher first : bool) (ts : list (nat * nat * bool)) : list word :=
  match ts with
  | [] => []
  | (o, n, ra) :: r => token_words line command_end old_matcher first (base + o) n ra ++ all_tokens line command_end base old_matcher false r
  end.

(** The loop over the commands (201-345), one command: the words it adds. *)
Definition command_words (line : bytes) (line_stop : nat) (c : nat * nat * bool) : option (list word) :=
  let '(o, n, allowed) := c in
  let text := firstn n (skipn o line) in
  let name := firstn (run (fun x => negb (blank x)) text) text in
  let named := Nat.ltb 0 (length name) in
  let is_alias := named && allowed && alias name in
  let doskey_len := if is_alias then length name + run blank (skipn (o + length name) (firstn line_stop line)) else 0 in
  let old_matcher := named && deprecated name in
  let len := if Nat.leb (o + n) line_stop && Nat.leb (o + doskey_len) line_stop && Nat.leb doskey_len n then n - doskey_len else 0 in
  let base := o + doskey_len in
  match words (at_ line (base + len)) (negb is_alias) (firstn len (skipn base line)) with
  | None => None
  | Some ts => Some ((if is_alias then [mkw o (length name) true true false false false] else []) ++
                     all_tokens line (o + n) base old_matcher (negb is_alias) ts)
  end.
(** All of them, and [first] after the last command *)
Fixpoint all_commands (line : bytes) (line_stop : nat) (cs : list (nat * nat * bool)) : option (list word * bool) :=
  match cs with
  | [] => Some ([], true)
  | c :: r =>
      match command_words line line_stop c, all_commands line line_stop r with
      | Some ws, Some (rest, first) => Some (ws ++ rest, match r with [] => match ws with [] => true | _ => false end | _ => first end)
      | _, _ => None
      end
  end.
(** 204-205: the offset of the last command not behind the cursor *)
Definition command_offset (cursor : nat) (cs : list (nat * nat * bool)) : nat :=
  fold_left (fun acc '(o, _, _) => if Nat.leb o cursor then o else acc) cs 0.

(** "./" and "../" (347-376); [rws]: the words, last one first. *)
Definition merge_dots (line : bytes) (rws : list word) : list word :=
  match rws with
  | w :: c :: r =>
      if command_word c && Nat.ltb 0 (n_ c) && Nat.ltb 0 (n_ w) && Nat.eqb (o_ w) (o_ c + n_ c) && ceq (at_ line (o_ w)) "/" && ceq (at_ line (o_ c)) "." &&
         (Nat.eqb (n_ c) 1 || (Nat.eqb (n_ c) 2 && ceq (at_ line (o_ c + 1)) "."))
      then mkw (o_ c) (n_ c + n_ w) (command_word c) (is_alias c) (redir c) (quoted c) (builtin c) :: r
      else rws
  | _ => rws
  end.
(** 378-389 *)
Definition add_end_word (cursor : nat) (stop_at_cursor first : bool) (rws : list word) : list word :=
  match rws with
  | [] => [mkw cursor 0 first false false false false]
  | w :: _ => if stop_at_cursor && Nat.ltb (o_ w + n_ w) cursor then mkw cursor 0 first false false false false :: rws else rws
  end.
(** The quotes (391-425): [quote_loop] is the loop at [i], with what is left of the word. *)
Fixpoint quote_loop (l : bytes) (i : nat) (quoted skip : bool) (last_end : nat) : bool * nat :=
  match l with
  | [] => (quoted, last_end)
  | c :: r =>
      if skip then quote_loop r (S i) quoted false last_end
      else if ceq c QUOTE then quote_loop r (S i) (negb quoted) false (if quoted then i else last_end)
      else quote_loop r (S i) quoted (negb quoted && ceq c "^") last_end
  end.
Definition strip_quotes (line : bytes) (w : word) : word :=
  if Nat.eqb (n_ w) 0 || is_alias w then w
  else
    let text := firstn (n_ w) (skipn (o_ w) line) in
    let start_quoted := ceq (at_ line (o_ w)) QUOTE in
    let end_quoted :=
      if start_quoted && Nat.ltb 1 (n_ w) && ceq (at_ line (o_ w + n_ w - 1)) QUOTE
      then let '(q, e) := quote_loop (tl text) 1 true false 0 in negb q && Nat.eqb (e + 1) (n_ w)
      else false in
    mkw (o_ w + (if start_quoted then 1 else 0)) (n_ w - (if start_quoted then 1 else 0) - (if end_quoted then 1 else 0))
        (command_word w) (is_alias w) (redir w) start_quoted (builtin w).
(** The words before the quotes are taken away *)
Definition raw_words (line : bytes) (cursor : nat) (stop_at_cursor : bool) : option (list (nat * nat * bool) * list word) :=
  let line_stop := if stop_at_cursor then cursor else length line in
  match command_bounds line cursor stop_at_cursor with
  | None => None
  | Some cs =>
      match all_commands line line_stop cs with
      | None => None
      | Some (ws, first) =>
          let rws := if stop_at_cursor && dots then merge_dots line (rev ws) else rev ws in
          Some (cs, rev (add_end_word cursor stop_at_cursor first rws))
      end
  end.
(** collect_words (186-436): the commands, the words and the offset returned. *)
Definition collect (line : bytes) (cursor : nat) (stop_at_cursor : bool) : option (list (nat * nat * bool) * list word * nat) :=
  match raw_words line cursor stop_at_cursor with
  | None => None
  | Some (cs, ws) => Some (cs, map (strip_quotes line) ws, command_offset cursor cs)
  end.
End Collect.

(** ** command_line_states::set (446-551) *)
Record line_state := mkl { char_offset : nat; range_offset : nat; range_length : nat; l_words : list word }.
(** The words of one command: the words up to the next one that begins a command *)
Fixpoint groups (ws : list word) : list (list word) :=
  match ws with
  | [] => []
  | w :: r =>
      match groups r with
      | [] => [[w]]
      | g :: gs => match g with
                   | x :: _ => if command_word x then [w] :: g :: gs else (w :: g) :: gs
                   | [] => [w] :: gs
                   end
      end
  end.
(** 472-481 *)
Definition char_offset_of (line : bytes) (w : word) : nat :=
  let o := if quoted w then o_ w - 1 else o_ w in
  if Nat.eqb o 1 && ceq (at_ line 0) SPC then 0
  else if Nat.leb 2 o && ceq (at_ line (o - 1)) SPC && ceq (at_ line (o - 2)) SPC then o - 1 else o.
(** 519-537 *)
Fixpoint mark_builtin (line : bytes) (ws : list word) : list word :=
  match ws with
  | [] => []
  | w :: r =>
      if redir w then w :: mark_builtin line r
      else (if negb (quoted w) && negb (is_alias w) && match is_cmd_command (firstn (n_ w) (skipn (o_ w) line)) with Some _ => true | None => false end
            then mkw (o_ w) (n_ w) (command_word w) (is_alias w) (redir w) (quoted w) true else w) :: r
  end.
(** 487-494: None: the iterator runs past the end. *)
Fixpoint seek (cs : list (nat * nat * bool)) (o : nat) : option (list (nat * nat * bool)) :=
  match cs with
  | [] => None
  | (a, n, _) :: r => if Nat.ltb (a + n) o then seek r o else Some cs
  end.
Fixpoint line_states (line : bytes) (cs : list (nat * nat * bool)) (gs : list (list word)) : option (list line_state) :=
  match gs with
  | [] => Some []
  | g :: r =>
      match g with
      | [] => None
      | w :: _ =>
          let o := char_offset_of line w in
          match seek cs o with
          | Some (((a, n, _) :: _) as cs') => match line_states line cs' r with Some l => Some (mkl o a n (mark_builtin line g) :: l) | None => None end
          | _ => None
          end
      end
  end.
Definition set_states (line : bytes) (cs : list (nat * nat * bool)) (ws : list word) : option (list line_state) := line_states line cs (groups ws).

(** ** break_end_word (563-616) and split_for_hinter (619-676) on the words of the last line state, last word first.  None: there is
    no word. *)
Definition break_end_word (truncate keep : nat) (discard : bool) (rws : list word) : option (list word * nat) :=
  match rws with
  | [] => None
  | w :: r =>
      let rws :=
        if discard then mkw (o_ w + truncate) (if Nat.ltb truncate (n_ w) then n_ w - truncate else 0) (command_word w) false false (quoted w) false :: r
        else if Nat.ltb 0 truncate then
          let t := Nat.min truncate (n_ w) in
          mkw (o_ w + t) (n_ w - t) false false false false false :: mkw (o_ w) t (command_word w) (is_alias w) (redir w) (quoted w) (builtin w) :: r
        else rws in
      match rws with
      | [] => None
      | e :: r =>
          let k := Nat.min keep (n_ e) in
          Some (if Nat.eqb (n_ e) k then e :: r else mkw (o_ e) k (command_word e) (is_alias e) (redir e) (quoted e) false :: r, o_ e)
      end
  end.
Fixpoint split_for_hinter (cursor : nat) (rws : list word) : list word :=
  match rws with
  | [] => [mkw cursor 0 false false false false false]
  | w :: r =>
      if Nat.ltb cursor (o_ w) then split_for_hinter cursor r
      else if Nat.leb cursor (o_ w + n_ w) then mkw (o_ w) (cursor - o_ w) (command_word w) (is_alias w) (redir w) (quoted w) false :: r
      else mkw cursor 0 false false false false false :: rws
  end.
