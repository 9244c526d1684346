(** Model of doskey macro expansion (clink/lib/src/doskey.cpp, with skip_leading_parens and trim_trailing_parens of
    clink/lib/src/cmd_tokenisers.cpp and the part of str_tokeniser that it uses).
    A line is the list of its bytes before the NUL; a str_iter is the bytes from its pointer to its end.
    Simplifications: str_iter steps over UTF-8 characters, the model over bytes (the same for well formed UTF-8: only
    ASCII characters are ever compared); [short(token.length())] at line 435 is taken as the length (lines are below
    32768 bytes: the console gives at most 8191 UTF-16 units); the cursor position (point) is not modelled; str_stream
    is its contents.  The console's macro table is the Section variable [lookup]: the text of a macro name
    (GetConsoleAliasW, the same for doskey.cpp 84-94 and os::get_alias); a macro has a non-empty text. *)
From Verif Require Import Base.

Definition QUOTE : byte := """"%char.
Definition ceq (a b : byte) : bool := Ascii.eqb a b.
Definition is_sep (c : byte) : bool := ceq c "|" || ceq c "&".

Section Doskey.
Variable lookup : bytes -> option bytes.
(** The doskey.enhanced setting. *)
Variable enhanced : bool.

(** The word of is_alias_word (cmd_tokenisers.cpp 279-286): up to a space or tab. *)
Fixpoint alias_word (l : bytes) : bytes :=
  match l with
  | [] => []
  | c :: r => if ceq c SPC || ceq c TAB then [] else c :: alias_word r
  end.

(** is_alias_word (cmd_tokenisers.cpp 277-299) as a truth value. *)
Definition is_alias_word (l : bytes) : bool :=
  match alias_word l with
  | [] => false
  | w => match lookup w with Some _ => true | None => false end
  end.

(** skip_leading_parens' loop (cmd_tokenisers.cpp 313-328): what is left from [orig], and the count. *)
Fixpoint skip_loop (l orig : bytes) (parens : nat) : bytes * nat :=
  match l with
  | [] => (orig, parens)
  | c :: r =>
      if negb (ceq c SPC) && negb (ceq c "@") && negb (ceq c "(") then (orig, parens)
      else if ceq c "("
           then match r with
                | d :: r' => if ceq d SPC || ceq d "@" then skip_loop r' r' (S parens) else skip_loop r r (S parens)
                | [] => ([], S parens)
                end
           else skip_loop r orig parens
  end.

(** skip_leading_parens (302-332); [first] is true in get_alias, so line 307 looks at an alias word whenever the
    line begins with a parenthesis. *)
Definition skip_leading_parens (l : bytes) : bytes * nat :=
  match l with
  | c :: _ => if ceq c "(" && is_alias_word l then (l, 0) else skip_loop l l 0
  | [] => skip_loop l l 0
  end.

(** trim_trailing_parens (335-353) with offset 0 on the reversed text; [length] is the length left, [ret] the result. *)
Fixpoint trim_loop (rl : bytes) (parens ret : nat) : nat :=
  match parens with
  | O => ret
  | S p =>
      match rl with
      | [] => ret
      | c :: r => if ceq c ")" then trim_loop r p (length r)
                  else if ceq c SPC then trim_loop r parens ret
                  else ret
      end
  end.

Definition trim_trailing_parens (l : bytes) (parens : nat) : nat := trim_loop (rev l) parens (length l).

(** get_alias' loop (51-72): how many bytes are before the end of the macro name. *)
Fixpoint name_end (relaxed : bool) (l : bytes) : nat :=
  match l with
  | [] => 0
  | c :: r =>
      if ceq c ">" then match r with
                        | d :: r' => if ceq d "&" then S (S (name_end relaxed r')) else S (name_end relaxed r)
                        | [] => 1
                        end
      else if ceq c SPC || (relaxed && is_sep c) then 0
      else S (name_end relaxed r)
  end.

(** Skipping spaces (97-98). *)
Fixpoint skip_spaces (l : bytes) : bytes :=
  match l with
  | c :: r => if ceq c SPC then skip_spaces r else l
  | [] => []
  end.

Record found := mkfound {
  f_skipped : nat;      (* bytes skipped before the name *)
  f_text : bytes;       (* the macro's text *)
  f_parens : nat;       (* parentheses skipped *)
  f_in : bytes;         (* what follows the name and the spaces after it *)
}.

(** get_alias (32-100) for one value of relaxed: the part up to the fallback label. *)
Definition get_alias1 (relaxed : bool) (l : bytes) : option found :=
  let '(start, parens) := skip_leading_parens l in
  match start with
  | c :: _ => if ceq c SPC then None else
      let n := name_end relaxed start in
      let alias := firstn (trim_trailing_parens (firstn n start) parens) start in
      match alias with
      | [] => None
      | _ => match lookup alias with
             | None => None
             | Some text => Some (mkfound (length l - length start) text parens (skip_spaces (skipn n start)))
             end
      end
  | [] => None
  end.

(** get_alias (32-100): lines 45-49 return at once, otherwise the fallback tries again with relaxed=true when
    doskey.enhanced is set.  (Trying again after lines 45-49 fails at the same place, so one definition serves.) *)
Definition get_alias (l : bytes) : option found :=
  match get_alias1 false l with
  | Some f => Some f
  | None => if enhanced then get_alias1 true l else None
  end.

(** find_command_end (103-135): the number of bytes before the end. *)
Fixpoint find_command_end (quote : bool) (l : bytes) : nat :=
  match l with
  | [] => 0
  | c :: r =>
      if ceq c QUOTE then S (find_command_end (negb quote) r)
      else if quote then S (find_command_end quote r)
      else if ceq c ">" then match r with
                             | d :: r' => if ceq d "&" then S (S (find_command_end quote r'))
                                          else S (find_command_end quote r)
                             | [] => 1
                             end
      else if ceq c "^" then match r with
                             | _ :: r' => S (S (find_command_end quote r'))
                             | [] => 1
                             end
      else if is_sep c then 0
      else S (find_command_end quote r)
  end.

(** The tag characters 1 to 9. *)
Definition arg_index (c : byte) : option nat :=
  let n := N_of_ascii c in
  if ((49 <=? n) && (n <=? 57))%N then Some (N.to_nat (n - 49)) else None.

(** The scan for argument tags inside quotes (366-397): false when one is found. *)
Fixpoint may_split (quote : bool) (m : bytes) : bool :=
  match m with
  | [] => true
  | c :: r =>
      let quote := if ceq c QUOTE then negb quote else quote in
      if negb (ceq c "$") then may_split quote r
      else match r with
           | [] => true
           | tag :: r' =>
               if ceq tag "*" || match arg_index tag with Some _ => true | None => false end
               then if quote then false else may_split quote r
               else if ceq tag "$" then may_split quote r' else may_split quote r
           end
  end.

(** str_tokeniser::next (str_tokeniser.cpp 92-138) with the delimiter space and, if enhanced, the quote pair of double
    quotes: first the delimiters are skipped (skip_spaces), then the token is taken. *)
Fixpoint token_end (quote : bool) (l : bytes) : nat :=
  match l with
  | [] => 0
  | c :: r =>
      if quote then S (token_end (negb (ceq c QUOTE)) r)
      else if ceq c SPC then 0
      else S (token_end (enhanced && ceq c QUOTE) r)
  end.

(** The loop of 432-457: at most 10 arguments.  Each one is kept with the text from its beginning to the end of the
    iterator's memory (the pointer desc->ptr). *)
Fixpoint collect_args (n : nat) (l : bytes) : list (bytes * bytes) :=
  match n with
  | O => []
  | S n' =>
      let t := skip_spaces l in
      match token_end false t with
      | O => []
      | k => (firstn k t, t) :: collect_args n' (skipn k t)
      end
  end.

(** The $x tags (504-512). *)
Definition tag_char (c : byte) : option byte :=
  if ceq c "$" then Some "$"%char
  else if ceq c "g" || ceq c "G" then Some ">"%char
  else if ceq c "l" || ceq c "L" then Some "<"%char
  else if ceq c "b" || ceq c "B" then Some "|"%char
  else if ceq c "t" || ceq c "T" then Some LF
  else None.

(** The expansion loop (491-605); [star] is the text from the first argument to the end of the command. *)
Fixpoint expand (args : list bytes) (star : bytes) (m : bytes) : bytes :=
  match m with
  | [] => []
  | c :: r =>
      if negb (ceq c "$") then c :: expand args star r
      else match r with
           | [] => []
           | t :: r' =>
               match tag_char t with
               | Some o => o :: expand args star r'
               | None =>
                   match arg_index t with
                   | Some i => nth i args [] ++ expand args star r'
                   | None => if ceq t "*" then star ++ expand args star r'
                             else "$"%char :: t :: expand args star r'
                   end
               end
           end
  end.

(** resolve_impl (316-633): the text put out and what is left of the input. *)
Definition resolve_impl (s : bytes) : option (bytes * bytes) :=
  match get_alias s with
  | None => None
  | Some f =>
      let after := f_in f in
      let split := enhanced && may_split false (f_text f) in
      (* end of the command, counted from [after] *)
      let n := if split then find_command_end false after else length after in
      let in_ := if split then firstn (trim_trailing_parens (firstn n after) (f_parens f)) after else after in
      let args := collect_args 10 in_ in
      (* from args.front()->ptr to the end of [command]: the first argument is where the spaces of in_ end *)
      let star := match args with [] => [] | _ => skip_spaces (firstn n after) end in
      Some (firstn (f_skipped f) s ++ expand (map fst args) star (f_text f), skipn n after)
  end.

(** The delimiters copied after a command (663-670). *)
Fixpoint delims (l : bytes) : nat :=
  match l with
  | c :: r => if is_sep c then S (delims r) else 0
  | [] => 0
  end.

(** resolve's loop (646-683): the output stream and whether anything was resolved.  None: fuel exhausted. *)
Fixpoint resolve_loop (fuel : nat) (text : bytes) (out : bytes) (resolves : bool) : option (bytes * bool) :=
  match fuel with
  | O => None
  | S k =>
      match text with
      | [] => Some (out, resolves)
      | _ =>
          let step :=
            match resolve_impl text with
            | Some (o, rest) => Some (o, rest, true)
            | None => if enhanced
                      then let n := find_command_end false text in Some (firstn n text, skipn n text, false)
                      else None
            end in
          match step with
          | None => Some (out, resolves)
          | Some (o, rest, res) =>
              let d := delims rest in
              let rest1 := skipn d rest in
              let sp := match rest1 with c :: _ => if ceq c SPC then 1 else 0 | [] => 0 end in
              resolve_loop k (skipn sp rest1) (out ++ o ++ firstn d rest ++ firstn sp rest1) (res || resolves)
          end
      end
  end.

(** resolve (636-693): the new contents of out; empty when nothing is resolved (reset, line 640). *)
Definition resolve (line : bytes) : option bytes :=
  match resolve_loop (S (length line)) line [] false with
  | None => None
  | Some (out, resolves) => Some (if resolves then out else [])
  end.
End Doskey.

(** doskey_alias::next (262-277) at the cursor's text: the line and the text after it.  The buffer ends at its first
    NUL (line 685 adds one, and the text before it has none). *)
Fixpoint take_line (l : bytes) : bytes * bytes :=
  match l with
  | [] => ([], [])
  | c :: r => if ceq c LF then ([], r) else let '(a, b) := take_line r in (c :: a, b)
  end.

Definition alias_next (l : bytes) : option (bytes * bytes) :=
  match l with [] => None | _ => Some (take_line l) end.

(** A caller's loop: while (alias.next(line)) ... *)
Fixpoint alias_lines (fuel : nat) (l : bytes) : list bytes :=
  match fuel with
  | O => []
  | S k => match alias_next l with
           | None => []
           | Some (a, b) => a :: alias_lines k b
           end
  end.
