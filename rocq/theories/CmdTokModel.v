(** Model of clink/lib/src/cmd_tokenisers.cpp: how a line is split into commands and a command into words.
    Lines are well formed UTF-8 without NUL; a character is compared by its first byte (the code compares decoded
    characters, but only with ASCII ones, and asks whether one is above 127).  An iterator is a pair: the bytes before
    its pointer, last one first, and the bytes from its pointer to its end.  Offsets are from m_start.
    The quote pair is the line editor's, a pair of double quotes (get_opening_quote and get_closing_quote, 118-131).
    The console's macros are the Section variable [lookup], doskey.enhanced is [enhanced]. *)
From Verif Require Import Base DoskeyModel.

Definition zip : Type := bytes * bytes.

(** str_iter::next on well formed UTF-8: an ASCII byte, or a lead byte and the continuation bytes after it. *)
Definition is_cont (c : byte) : bool := let n := N_of_ascii c in ((128 <=? n) && (n <? 192))%N.
Fixpoint skip_cont (done rest : bytes) : zip :=
  match rest with
  | c :: r => if is_cont c then skip_cont (c :: done) r else (done, rest)
  | [] => (done, rest)
  end.
Definition next_char (z : zip) : zip :=
  match z with
  | (done, c :: r) => if (N_of_ascii c <? 128)%N then (c :: done, r) else skip_cont (c :: done) r
  | (done, []) => (done, [])
  end.
(** next where the character is known to be ASCII *)
Definition next_byte (z : zip) : zip :=
  match z with
  | (done, c :: r) => (c :: done, r)
  | (done, []) => (done, [])
  end.

(** get_input_type (43-66).  The model's 0 is the peeked value at the end. *)
Inductive input := iTxt | iSpc | iDig | iIn | iOut | iAmp | iPipe.
Definition input_type (c : byte) : input :=
  if ceq c SPC || ceq c TAB || ceq c NUL then iSpc
  else if is_digit c then iDig
  else if ceq c "<" then iIn
  else if ceq c ">" then iOut
  else if ceq c "&" then iAmp
  else if ceq c "|" then iPipe
  else iTxt.

(** tokeniser_state (70) and c_transition (71-87). *)
Inductive tstate :=
  sTxt | sSpc | sDig | sIn | sOut | sIn2 | sOut2 | sDIn | sDOut | sDIn2 | sDOut2 | sReAm | sAmDi
| sBREAK | sARG | sVALID | sBAD.
Definition row (st : tstate) : option (list tstate) :=
  match st with
  | sTxt   => Some [ sTxt;   sSpc;   sTxt;   sIn;    sOut;   sBREAK; sBREAK ]
  | sSpc   => Some [ sTxt;   sSpc;   sDig;   sIn;    sOut;   sBREAK; sBREAK ]
  | sDig   => Some [ sTxt;   sSpc;   sTxt;   sDIn;   sDOut;  sBREAK; sBREAK ]
  | sIn    => Some [ sARG;   sARG;   sARG;   sIn2;   sBAD;   sBAD;   sBAD   ]
  | sOut   => Some [ sARG;   sARG;   sARG;   sBAD;   sOut2;  sBAD;   sBAD   ]
  | sIn2   => Some [ sARG;   sARG;   sARG;   sBAD;   sBAD;   sBAD;   sBAD   ]
  | sOut2  => Some [ sARG;   sARG;   sARG;   sBAD;   sBAD;   sBAD;   sBAD   ]
  | sDIn   => Some [ sARG;   sARG;   sARG;   sDIn2;  sBAD;   sReAm;  sBAD   ]
  | sDOut  => Some [ sARG;   sARG;   sARG;   sBAD;   sDOut2; sReAm;  sBAD   ]
  | sDIn2  => Some [ sARG;   sARG;   sARG;   sBAD;   sBAD;   sReAm;  sBAD   ]
  | sDOut2 => Some [ sARG;   sARG;   sARG;   sBAD;   sBAD;   sReAm;  sBAD   ]
  | sReAm  => Some [ sBAD;   sBAD;   sAmDi;  sBAD;   sBAD;   sBAD;   sBAD   ]
  | sAmDi  => Some [ sVALID; sVALID; sVALID; sVALID; sVALID; sVALID; sVALID ]
  | _ => None
  end.
Definition column (i : input) : nat :=
  match i with iTxt => 0 | iSpc => 1 | iDig => 2 | iIn => 3 | iOut => 4 | iAmp => 5 | iPipe => 6 end.
(** None: a read outside of the table. *)
Definition transition (st : tstate) (i : input) : option tstate :=
  match row st with Some r => nth_error r (column i) | None => None end.

Definition st_eq (a b : tstate) : bool :=
  match a, b with
  | sTxt, sTxt | sSpc, sSpc | sDig, sDig | sIn, sIn | sOut, sOut | sIn2, sIn2 | sOut2, sOut2 | sDIn, sDIn
  | sDOut, sDOut | sDIn2, sDIn2 | sDOut2, sDOut2 | sReAm, sReAm | sAmDi, sAmDi | sBREAK, sBREAK | sARG, sARG
  | sVALID, sVALID | sBAD, sBAD => true
  | _, _ => false
  end.
(** state <= sSpc, state <= sDig *)
Definition le_spc (s : tstate) : bool := match s with sTxt | sSpc => true | _ => false end.
Definition le_dig (s : tstate) : bool := match s with sTxt | sSpc | sDig => true | _ => false end.
Definition ends_redir (s : tstate) : bool := match s with sARG | sVALID | sBAD => true | _ => false end.

(** ** cmd_state (134-247) *)

Definition lower (c : byte) : byte :=
  let n := N_of_ascii c in if ((65 <=? n) && (n <=? 90))%N then ascii_of_N (n + 32) else c.

(** The command tables (25-40); stricmp of ASCII words. *)
Definition basic_commands : list bytes :=
  map lit ["assoc"; "color"; "ftype"; "if"; "set"; "ver"; "verify"]%string.
Definition shell_commands : list bytes :=
  map lit ["break"; "call"; "cd"; "chdir"; "cls"; "copy"; "date"; "del"; "dir";
    "dpath"; "echo"; "endlocal"; "erase"; "exit"; "for"; "goto"; "md";
    "mkdir"; "mklink"; "move"; "path"; "pause"; "popd"; "prompt"; "pushd";
    "rd"; "rem"; "ren"; "rename"; "rmdir"; "setlocal"; "shift"; "start";
    "time"; "title"; "type"; "vol"]%string.
(** The map of is_cmd_command (143-160): None for no entry, otherwise whether the entry has flag_rem. *)
Definition command_flag (w : bytes) : option bool :=
  let l := map lower w in
  if eqb_bytes l (lit "rem") then Some true
  else if existsb (eqb_bytes l) (basic_commands ++ shell_commands) then Some false
  else None.
(** The removal of ^ (167-178). *)
Fixpoint strip_caret (w : bytes) : bytes :=
  match w with
  | [] => []
  | c :: r => if ceq c "^" then match r with [] => [] | d :: r' => d :: strip_caret r' end else c :: strip_caret r
  end.
(** is_cmd_command (140-186). *)
Definition is_cmd_command (w : bytes) : option bool :=
  match command_flag w with
  | Some f => Some f
  | None => if existsb (Ascii.eqb "^") w then command_flag (strip_caret w) else None
  end.

Record cmd_state := mkcs { cs_word : bytes; cs_first : bool; cs_failed : bool; cs_match : bool }.
(** clear (189-196) *)
Definition cs_clear (first : bool) : cmd_state := mkcs [] first false false.
(** next_word (199-205) *)
Definition cs_next_word (s : cmd_state) : cmd_state :=
  if cs_first s then mkcs (cs_word s) false (cs_failed s) (cs_match s)
  else mkcs (cs_word s) (cs_first s) true (cs_match s).
Definition cs_cancel (s : cmd_state) : cmd_state := mkcs (cs_word s) (cs_first s) true (cs_match s).

Definition has (set : bytes) (c : byte) : bool := existsb (Ascii.eqb c) set.
Definition command_delimiters : bytes := lit "&(=+[]\|;:,.<>/ " ++ [TAB].

(** test (208-247) *)
Definition cs_test (only_rem : bool) (s : cmd_state) (c : byte) (ns : tstate) : bool * cmd_state :=
  if cs_failed s then (false, s)
  else if match cs_word s with [] => true | _ => false end &&
          (negb (le_dig ns) || ceq c SPC || ceq c TAB || ceq c "(" || ceq c "@") then (false, s)
  else if Nat.ltb 8 (length (cs_word s)) || (128 <=? N_of_ascii c)%N then (false, cs_cancel s)
  else if cs_match s && has command_delimiters c then (true, cs_cancel s)
  else
    let w := cs_word s ++ [c] in
    match is_cmd_command w with
    | None => (false, mkcs w (cs_first s) false false)
    | Some rem => if only_rem && negb rem then (false, mkcs w (cs_first s) true false)
                  else (false, mkcs w (cs_first s) false true)
    end.

(** The delimiter sets (252-255) and get_delims (258-265). *)
Definition command_delims : bytes := lit "@ " ++ TAB :: lit "=;,(/".
Definition name_delims : bytes := lit "@ " ++ TAB :: lit "=;,(".
Definition word_delims : bytes := lit " " ++ TAB :: LF :: lit "'`=+;,()[]{}".
Definition get_delims (command_word redir_arg in_word : bool) : bytes :=
  if redir_arg || (command_word && negb in_word) then name_delims
  else if command_word then command_delims
  else word_delims.

(** ** cmd_command_tokeniser (356-486) *)

Record loop_state := mkls {
  l_any_text : bool; l_is_arg : bool; l_in_quote : bool; l_state : tstate; l_cmd : cmd_state }.

(** One turn of the loop (408-479) at the character [c] with [r] after it: go on at a new place, or stop at one.
    None: a read outside of the transition table. *)
Inductive turn := Go (z : zip) (x : loop_state) | Stop (z : zip).
Definition cmd_turn (done : bytes) (c : byte) (r : bytes) (x : loop_state) : option turn :=
  if l_in_quote x then
    Some (Go (next_char (done, c :: r)) (mkls (l_any_text x) (l_is_arg x) (negb (ceq c QUOTE)) (l_state x) (l_cmd x)))
  else
    let z := if ceq c "^" then next_char (next_char (done, c :: r)) else next_char (done, c :: r) in
    let input := input_type c in
    match transition (l_state x) input with
    | None => None
    | Some ns0 =>
        let sets_text := (st_eq ns0 sTxt || st_eq ns0 sDig) && negb (l_any_text x) &&
                         negb (has name_delims c) && negb (ceq c "&") && negb (ceq c "|") in
        let any_text := l_any_text x || sets_text in
        let z := if sets_text && match input with iDig => true | _ => false end && st_eq ns0 sTxt &&
                    match done with p :: _ => ceq p "@" | [] => false end &&
                    match snd z with q :: _ => ceq q ">" | [] => false end
                 then next_byte z else z in
        let ns1 := if st_eq ns0 sBREAK && negb any_text then sTxt else ns0 in
        match (if ends_redir ns1 then option_map (fun s => (s, true)) (transition sSpc input)
               else Some (ns1, if st_eq ns1 sTxt then l_is_arg x else false)) with
        | None => None
        | Some (ns, is_arg) =>
            let '(hit, cs) := if le_dig ns && negb is_arg then cs_test true (l_cmd x) c ns else (false, l_cmd x) in
            if hit then Some (Stop (rev (snd z) ++ fst z, []))
            else if st_eq ns sBREAK then Some (Stop (done, c :: r))
            else Some (Go z (mkls any_text is_arg (ceq c QUOTE) ns cs))
        end
    end.

(** The loop (408-479).  None: fuel exhausted or a read outside of the table. *)
Fixpoint cmd_loop (fuel : nat) (z : zip) (x : loop_state) : option zip :=
  match fuel with
  | O => None
  | S k =>
      match z with
      | (done, []) => Some (done, [])
      | (done, c :: r) =>
          match cmd_turn done c r x with
          | None => None
          | Some (Stop z') => Some z'
          | Some (Go z' x') => cmd_loop k z' x'
          end
      end
  end.

Section Cmd.
Variable lookup : bytes -> option bytes.
Variable enhanced : bool.

(** is_alias_word (277-299): the length of the word if it is a macro. *)
Definition alias_len (l : bytes) : nat := if is_alias_word lookup l then length (alias_word l) else 0.

(** skip_leading_parens (302-332) as in DoskeyModel, for any [first]. *)
Definition skip_parens (first : bool) (l : bytes) : bytes * nat :=
  match l with
  | c :: _ => if (first || enhanced) && ceq c "(" && is_alias_word lookup l then (l, 0) else skip_loop l l 0
  | [] => skip_loop l l 0
  end.

(** Moving on to a place given by what is left there. *)
Definition advance_to (z : zip) (rest : bytes) : zip :=
  let n := length (snd z) - length rest in (rev (firstn n (snd z)) ++ fst z, rest).

Fixpoint iter_char (n : nat) (z : zip) : zip := match n with O => z | S k => iter_char k (next_char z) end.

(** Skipping a separator: & && | || (370-380). *)
Definition skip_separator (z : zip) : zip :=
  match snd z with
  | c1 :: r => if ceq c1 "&" || ceq c1 "|"
               then match r with
                    | c2 :: _ => if ceq c1 c2 then next_byte (next_byte z) else next_byte z
                    | [] => next_byte z
                    end
               else z
  | [] => z
  end.

(** Where the scan of a command begins (367-388): after the separator, the parentheses and one space.  The number of
    parentheses skipped is the second result. *)
Definition command_start (z : zip) : zip * nat :=
  let first := match fst z with [] => true | _ => false end in
  let z1 := if first then z else skip_separator z in
  let '(rest, parens) := skip_parens first (snd z1) in
  let z2 := advance_to z1 rest in
  let z3 := if negb first && Nat.eqb parens 0 && match snd z2 with c :: _ => ceq c SPC | [] => false end
            then next_byte z2 else z2 in
  (z3, parens).

(** The scan itself (390-479): a macro name is skipped by as many characters as it has bytes (399-406). *)
Definition command_scan (z : zip) : option zip :=
  let n := alias_len (snd z) in
  if Nat.eqb n 0
  then cmd_loop (S (length (snd z))) z (mkls false false false sSpc (cs_clear true))
  else let z' := iter_char n z in
       cmd_loop (S (length (snd z'))) z' (mkls true false false sSpc (cs_cancel (cs_clear true))).

(** next (356-486): offset, length, and the new place.  Only called when there is more (358-363 otherwise). *)
Definition command_next (z : zip) : option (nat * nat * zip) :=
  let '(z1, parens) := command_start z in
  match command_scan z1 with
  | None => None
  | Some z2 =>
      let offset := length (fst z1) in
      let text := firstn (length (fst z2) - offset) (snd z1) in
      Some (offset, trim_trailing_parens text parens, z2)
  end.

(** All commands of a line: next until there is no more. *)
Fixpoint commands_from (fuel : nat) (z : zip) : option (list (nat * nat)) :=
  match fuel with
  | O => None
  | S k =>
      match snd z with
      | [] => Some []
      | _ => match command_next z with
             | None => None
             | Some (o, n, z') =>
                 match commands_from k z' with
                 | None => None
                 | Some l => Some ((o, n) :: l)
                 end
             end
      end
  end.
Definition commands (line : bytes) : option (list (nat * nat)) := commands_from (S (length line)) ([], line).
End Cmd.

(** ** cmd_word_tokeniser (498-671) *)

Record word_state := mkws { w_cmd : cmd_state; w_command_word : bool; w_next_redir_arg : bool }.

(** start (498-503) *)
Definition word_start (at_beginning : bool) : word_state := mkws (cs_clear at_beginning) at_beginning false.

(** Skipping separators (525-545). *)
Fixpoint skip_word_seps (fuel : nat) (delims : bytes) (z : zip) : option zip :=
  match fuel with
  | O => None
  | S k =>
      match snd z with
      | [] => Some z
      | c :: r =>
          if ceq c "^" then
            match r with
            | d :: _ => if ceq d SPC then skip_word_seps k delims (next_byte (next_byte z)) else Some z
            | [] => Some z
            end
          else if has delims c then skip_word_seps k delims (next_byte z)
          else Some z
      end
  end.

(** start_new_word (519-549) without its last lines. *)
Definition start_new_word (command_word : bool) (z : zip) (s : word_state) : option (zip * word_state * bool) :=
  let redir_arg := w_next_redir_arg s in
  match skip_word_seps (S (length (snd z))) (get_delims command_word redir_arg false) z with
  | None => None
  | Some z' => Some (z', mkws (cs_next_word (w_cmd s)) (w_command_word s) false, redir_arg)
  end.

Record word_loop_state := mkwl {
  wl_ws : word_state;
  wl_redir_arg : bool;
  wl_start : nat; wl_end : nat;        (* start_word, end_word *)
  wl_first_char : bool; wl_first_slash : bool; wl_in_quote : bool; wl_state : tstate }.

Section Word.
(** The byte at the iterator's end, as *get_next_pointer() reads it (621). *)
Variable beyond : byte.
Variable command_word : bool.

Inductive wturn := WGo (z : zip) (x : word_loop_state) | WStop (z : zip) (x : word_loop_state).

Definition pos (z : zip) : nat := length (fst z).
Definition peek (z : zip) : byte := match snd z with c :: _ => c | [] => NUL end.

(** A break in the state machine counts as text (585-586, 604-605). *)
Definition no_break (s : tstate) : tstate := if st_eq s sBREAK then sTxt else s.

(** The second half of a turn outside of quotes (608-662). *)
Definition word_tail (z : zip) (ws : word_state) (ra : bool) (start end0 : nat) (st ns1 : tstate)
                     (first_char first_slash : bool) : option wturn :=
  let c := peek z in
  let end1 := if le_spc ns1 && le_dig st then pos z else end0 in
  match snd z with
  | [] => Some (WStop z (mkwl ws ra start end1 first_char first_slash false st))
  | _ :: r =>
      (* 619-629 *)
      let c2 := match r with d :: _ => d | [] => beyond end in
      let caret_space := ceq c "^" && negb ra && match input_type c2 with iSpc => true | _ => false end in
      match (if caret_space then option_map (fun s => (c2, s)) (transition st iSpc) else Some (c, ns1)) with
      | None => None
      | Some (c, ns) =>
          (* 632-633 *)
          let '(hit, cs) := if st_eq ns sTxt then cs_test false (w_cmd ws) c ns else (false, w_cmd ws) in
          let ws := mkws cs (w_command_word ws) (w_next_redir_arg ws) in
          if hit then Some (WStop z (mkwl ws ra start end1 first_char first_slash false st))
          (* 636-637 *)
          else if ceq c "/" && negb first_slash && negb first_char && command_word && negb ra
          then Some (WStop z (mkwl ws ra start end1 first_char first_slash false st))
          else
            (* 639-647 *)
            let z' := if ceq c "^" then next_char (next_char z) else next_char z in
            if st_eq ns sSpc || (st_eq ns sTxt && has (get_delims command_word ra (negb first_slash && negb first_char)) c)
            then Some (WStop z' (mkwl ws ra start end1 first_char first_slash false st))
            else Some (WGo z' (mkwl ws ra start (if st_eq ns sTxt then pos z' else end1) false first_slash (ceq c QUOTE) ns))
      end
  end.

(** One turn of the loop (558-663). *)
Definition word_turn (z : zip) (x : word_loop_state) : option wturn :=
  if wl_in_quote x then
    match snd z with
    | [] => Some (WStop z x)
    | c :: _ =>
        let z' := next_char z in
        Some (WGo z' (mkwl (wl_ws x) (wl_redir_arg x) (wl_start x) (pos z') false (wl_first_slash x)
                           (negb (ceq c QUOTE)) (wl_state x)))
    end
  else
    let c0 := peek z in
    let first_slash := if wl_first_char x then ceq c0 "/" else wl_first_slash x in
    match transition (wl_state x) (input_type c0) with
    | None => None
    | Some t =>
        let ns0 := no_break t in
        if ends_redir ns0 then
          let ws := mkws (w_cmd (wl_ws x)) (w_command_word (wl_ws x)) (st_eq ns0 sARG) in
          if Nat.ltb (wl_start x) (wl_end x)
          then (* 594-596 *)
            Some (WStop z (mkwl ws (wl_redir_arg x) (wl_start x) (wl_end x) (wl_first_char x) first_slash false (wl_state x)))
          else (* 598-605 *)
            match start_new_word command_word z ws with
            | None => None
            | Some (z', ws, ra) =>
                match transition sSpc (input_type (peek z')) with
                | None => None
                | Some t' => word_tail z' ws ra (pos z') (pos z') sSpc (no_break t') (wl_first_char x) first_slash
                end
            end
        else word_tail z (wl_ws x) (wl_redir_arg x) (wl_start x) (wl_end x) (wl_state x) ns0 (wl_first_char x) first_slash
    end.

Fixpoint word_loop (fuel : nat) (z : zip) (x : word_loop_state) : option (zip * word_loop_state) :=
  match fuel with
  | O => None
  | S k =>
      match word_turn z x with
      | None => None
      | Some (WStop z' x') => Some (z', x')
      | Some (WGo z' x') => word_loop k z' x'
      end
  end.
End Word.

(** next (506-671): offset, length and redir_arg, the new place and state.  Only called when there is more (508-509
    otherwise). *)
Definition word_next (beyond : byte) (z : zip) (s : word_state) : option (nat * nat * bool * zip * word_state) :=
  let command_word := w_command_word s in
  match start_new_word command_word z s with
  | None => None
  | Some (z1, ws, ra) =>
      match word_loop beyond command_word (S (S (length (snd z1)))) z1 (mkwl ws ra (pos z1) (pos z1) true false false sSpc) with
      | None => None
      | Some (z2, x) =>
          Some (wl_start x, wl_end x - wl_start x, wl_redir_arg x, z2,
                mkws (w_cmd (wl_ws x)) (if wl_redir_arg x then w_command_word (wl_ws x) else false)
                     (w_next_redir_arg (wl_ws x)))
      end
  end.

Fixpoint words_from (fuel : nat) (beyond : byte) (z : zip) (s : word_state) : option (list (nat * nat * bool)) :=
  match fuel with
  | O => None
  | S k =>
      match snd z with
      | [] => Some []
      | _ => match word_next beyond z s with
             | None => None
             | Some (o, n, ra, z', s') =>
                 match words_from k beyond z' s' with
                 | None => None
                 | Some l => Some ((o, n, ra) :: l)
                 end
             end
      end
  end.
Definition words (beyond : byte) (at_beginning : bool) (line : bytes) : option (list (nat * nat * bool)) :=
  words_from (S (length line)) beyond ([], line) (word_start at_beginning).
