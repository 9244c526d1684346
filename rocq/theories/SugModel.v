(** Model of accepting and showing suggestions: suggestion_manager (clink/lib/src/suggestions.cpp 225-774), the
    operations of rl_buffer it uses (clink/lib/src/rl/rl_buffer.cpp 119-165) and the Readline functions behind them
    (readline/readline/text.c 98-186), and the container of suggestions (suggestions.cpp 113-220).

    Texts are byte lists without NUL; offsets are below 2^31.  str_compare_scope's mode and accent flag, the settings and
    the state of the suggestion list are variables of the environment.  rl_forward_word, CharLowerW are variables
    (any functions).  Drawing, undo groups and the hint are not modelled.  None: a read outside of the memory, or a loop
    that does not end within the fuel given. *)
From Verif Require Import Base UtfModel CmpModel.

(** struct suggestion (clink/lib/include/lib/suggestions.h 21-30); the highlight and the tooltip are one value. *)
Record item := mkItem {
  i_text : list N; i_off : nat; i_src : list N; i_deco : list N; i_hist : Z
}.

(** class suggestions (suggestions.h 33-60). *)
Record sugs := mkSugs { u_line : list N; u_items : list item; u_gen : N; u_dirty : bool }.

(** suggestions::clear (166-172). *)
Definition u_clear (gen : N) : sugs := mkSugs [] [] gen false.
(** suggestions::set_line (175-178): concat. *)
Definition u_set_line (u : sugs) (line : list N) : sugs := mkSugs (u_line u ++ line) (u_items u) (u_gen u) (u_dirty u).
(** suggestions::add (181-194). *)
Definition u_add (u : sugs) (i : item) : sugs := mkSugs (u_line u) (u_items u ++ [i]) (u_gen u) (u_dirty u).
(** suggestions::remove (197-201). *)
Definition u_remove (u : sugs) (k : nat) : sugs :=
  mkSugs (u_line u) (firstn k (u_items u) ++ skipn (S k) (u_items u)) (u_gen u) true.
(** operator = (const suggestions&) (114-123). *)
Definition u_copy (other : sugs) : sugs :=
  let u := fold_left u_add (u_items other) (mkSugs (u_line other) [] 0 false) in
  mkSugs (u_line u) (u_items u) (u_gen other) (u_dirty other).

(** suggestions::remove_if_history_index (204-220).  The argument is uint32, so the comparisons are unsigned: the
    int32 m_history_index is converted. *)
Definition u32 (z : Z) : Z := (z mod 4294967296)%Z.
Definition s32 (z : Z) : Z := let m := (z mod 4294967296)%Z in (if m <? 2147483648 then m else m - 4294967296)%Z.
Definition set_hist (i : item) (h : Z) : item := mkItem (i_text i) (i_off i) (i_src i) (i_deco i) h.
Fixpoint drop_history (idx : Z) (l : list item) : list item :=
  match l with
  | [] => []
  | i :: r =>
      if (u32 (i_hist i) =? idx)%Z then drop_history idx r
      else (if (idx <? u32 (i_hist i))%Z then set_hist i (s32 (i_hist i - 1)) else i) :: drop_history idx r
  end.
Definition u_remove_history (u : sugs) (idx : Z) : sugs :=
  mkSugs (u_line u) (drop_history idx (u_items u)) (u_gen u) true.

(** The edited line (rl_line_buffer, rl_end, rl_point). *)
Record buf := mkBuf { b_text : list N; b_cur : nat }.
(** rl_buffer::set_cursor (119-129). *)
Definition b_set_cursor (b : buf) (pos : nat) : buf := mkBuf (b_text b) (Nat.min pos (length (b_text b))).
(** rl_buffer::remove (154-164) with rl_delete_text (text.c 145-186). *)
Definition b_remove (b : buf) (from to : nat) : buf :=
  let n := length (b_text b) in
  let to := Nat.min to n in
  let '(from, to) := if Nat.ltb to from then (to, Nat.min from n) else (from, to) in
  let t := firstn from (b_text b) ++ skipn to (b_text b) in
  mkBuf t (Nat.min (b_cur b) (length t)).
(** rl_buffer::insert (144-151) with rl_insert_text (text.c 98-140). *)
Definition b_insert (b : buf) (t : list N) : buf :=
  mkBuf (firstn (b_cur b) (b_text b) ++ t ++ skipn (b_cur b) (b_text b)) (b_cur b + length t).

(** The settings read, and whether the suggestion list is active or enabled. *)
Record env := mkEnv {
  e_enable : bool; e_inline : bool; e_original : bool; e_mode : nat; e_fuzzy : bool;
  e_list_active : bool; e_list_enabled : bool
}.

(** The suggestion_manager (suggestions.h 63-95).  m_iter is None for an empty iterator, otherwise an offset into the
    text of the first suggestion.  m_endword_offset is None for -1.  The lock is not modelled. *)
Record mgr := mkMgr {
  g_iter : option nat; g_started : list N; g_sugs : sugs; g_endword : option nat; g_paused : bool; g_suppress : bool;
  g_gen : N
}.

(** new_generation (594-600): a uint32 that skips 0. *)
Definition next_gen (g : N) : N := let g := ((g + 1) mod 4294967296)%N in if (g =? 0)%N then 1%N else g.

(** suggestion_manager::clear (310-331), without drawing. *)
Definition g_clear (g : mgr) : mgr := mkMgr None [] (u_clear 0) None (g_paused g) false (next_gen (g_gen g)).

(** suppress_suggestions (427-434). *)
Definition g_suppressed (g : mgr) (b : buf) : mgr :=
  let g := g_clear g in
  mkMgr (g_iter g) (g_started g ++ b_text b) (u_set_line (g_sugs g) (b_text b)) (g_endword g) (g_paused g) true (g_gen g).

Inductive action := to_end | next_word | next_full_word.

(** is_suggestion_word_break (572-575). *)
Definition word_break (c : N) : bool := ((c =? 32) || (c =? 9))%N.

Section Sug.
Variable lower : N -> N.
Variable forward_word : list N -> nat -> nat.
Variable e : env.

(** str_compare<char, false, true> (str_compare.h 47-104) on two iterators: where they end up. *)
Definition compare (ml : list N) (el : option nat) (p : nat) (mr : list N) (er : option nat) (q : nat)
  : option (nat * nat) :=
  cmp_loop lower (next8 ml el) (next8 mr er) (e_mode e) (e_fuzzy e) true (S (length ml + length mr)) p q.

(** m_iter over the text [t] (str_iter(c_str, length)), and str_iter(c_str). *)
Definition cstr (t : list N) : list N := t ++ [0%N].

(** suggestion_manager::get_visible (233-302), without the hint; None also when it returns false.  [Some None]:
    it returned false. *)
Definition get_visible (g : mgr) (b : buf) : option (option (list N)) :=
  match u_items (g_sugs g) with
  | [] => Some None
  | first :: _ =>
      if e_list_active e then Some None
      else if Nat.ltb (length (b_text b)) (i_off first) then Some None
      else
        match compare (cstr (b_text b)) None (i_off first) (cstr (i_text first)) (Some (length (i_text first))) 0 with
        | None => None
        | Some (p, q) =>
            match more (cstr (b_text b)) None p with
            | None => None
            | Some true => Some None
            | Some false =>
                Some (Some (if e_inline e then firstn p (b_text b) ++ skipn q (i_text first) else b_text b))
            end
        end
  end.

(** The quotes and characters between replace_offset and the end of the line (658-677): while the iterator [p] has
    not reached the end, one character is read, the suggestion's iterator [q] advances by one character (once [p] is
    behind the inflection point, the offset of the suggestion) and quotes toggle. *)
Fixpoint track (fuel : nat) (line : list N) (text : list N) (inflection p q : nat) (quote : bool)
  : option (nat * bool) :=
  match fuel with
  | O => None
  | S k =>
      if Nat.ltb p (length line) then
        match next8 (cstr line) (Some (length line)) p with
        | None => None
        | Some (c, p') =>
            let quote := if (c =? 34)%N then negb quote else quote in
            if Nat.ltb inflection p' then
              match next8 (cstr text) (Some (length text)) q with
              | None => None
              | Some (_, q') => track k line text inflection p' q' quote
              end
            else track k line text inflection p' q quote
        end
      else Some (q, quote)
  end.

(** Skip spaces (710-716). *)
Fixpoint skip_blanks (fuel : nat) (text : list N) (q : nat) : option nat :=
  match fuel with
  | O => None
  | S k =>
      match next8 (cstr text) (Some (length text)) q with
      | None => None
      | Some (c, q') => if (c =? 0)%N then Some q else if word_break c then skip_blanks k text q' else Some q
      end
  end.
(** Skip non-spaces (718-726). *)
Fixpoint skip_word (fuel : nat) (text : list N) (q : nat) (quote : bool) : option nat :=
  match fuel with
  | O => None
  | S k =>
      match next8 (cstr text) (Some (length text)) q with
      | None => None
      | Some (c, q') =>
          if (c =? 0)%N then Some q
          else if (c =? 34)%N then skip_word k text q' (negb quote)
          else if negb quote && word_break c then Some q
          else skip_word k text q' quote
      end
  end.

(** resync_suggestion_iterator (578-591): [consume] is an int32 and may be negative. *)
Fixpoint resync (fuel : nat) (text : list N) (start q : nat) (consume : Z) : option nat :=
  match fuel with
  | O => None
  | S k =>
      if (Z.of_nat q - Z.of_nat start <? consume)%Z then
        match next8 (cstr text) (Some (length text)) q with
        | None => None
        | Some (_, q') => resync k text start q' consume
        end
      else Some q
  end.

(** The second part of insert (685-765): [q0] is where the suggestion continues behind the end word offset, [q] where it
    continues behind the end of the line, [quote] whether that is inside of quotes. *)
Definition insert_rest (fuel : nat) (a : action) (g : mgr) (b : buf) (off : nat) (text : list N) (endword q0 q : nat)
    (quote : bool) : option (bool * mgr * buf) :=
  let n := length (b_text b) in
  (* 663-664, 685-694 *)
  let end_offset := if e_original e then off + q else n in
  let replace := if e_original e then Nat.max endword off else n in
  let ins := skipn (if e_original e then q0 else q) text in
  (* 696-699 *)
  let b1 := b_insert (b_remove b replace n) ins in
  match a with
  | to_end => Some (true, g_suppressed g b1, b1)
  | _ =>
      let b2 := b_set_cursor b1 end_offset in
      let r :=
        match a with
        | next_full_word =>
            match skip_blanks fuel text q with
            | None => None
            | Some q1 => match skip_word fuel text q1 quote with
                         | None => None
                         | Some q2 => Some (b_set_cursor b2 (b_cur b2 + (q2 - q)), q2)
                         end
            end
        | _ =>
            let b3 := mkBuf (b_text b2) (forward_word (b_text b2) (b_cur b2)) in
            match resync fuel text q q (Z.of_nat (b_cur b3) - Z.of_nat end_offset) with
            | None => None
            | Some q2 => Some (b3, q2)
            end
        end in
      match r with
      | None => None
      | Some (b3, q2) =>
          (* 739-763 *)
          if Nat.ltb (b_cur b3) (length (b_text b3)) then
            let b4 := b_remove b3 (b_cur b3) (length (b_text b3)) in
            Some (true, mkMgr (Some q2) (b_text b4) (u_set_line (g_sugs g) (b_text b4)) (g_endword g)
                              (g_paused g) (g_suppress g) (g_gen g), b4)
          else Some (true, g_suppressed g b3, b3)
      end
  end.

(** suggestion_manager::insert (603-765).  [fuel] bounds the loops; the result is the return value, the manager and
    the line. *)
Definition insert (fuel : nat) (a : action) (g : mgr) (b : buf) : option (bool * mgr * buf) :=
  if negb (e_enable e) || negb (e_inline e) then Some (false, g, b)
  else
    match u_items (g_sugs g) with
    | [first] =>
        if e_list_active e then Some (false, g, b)
        else
          let text := i_text first in
          let off := i_off first in
          let line := b_text b in
          let n := length line in
          match (match g_iter g with None => Some false | Some q => more (cstr text) (Some (length text)) q end) with
          | None => None
          | Some more_iter =>
          if negb more_iter || negb (Nat.eqb (b_cur b) n) then Some (false, g, b)
          else if e_original e && (match a with to_end => true | _ => false end) && Nat.eqb off 0 then
            (* 627-644 *)
            match compare (cstr line) (Some n) 0 (cstr text) (Some (length text)) 0 with
            | None => None
            | Some (p, q) =>
                match more (cstr line) (Some n) p, more (cstr text) (Some (length text)) q with
                | Some om, Some sm =>
                    let b' := if negb om && sm then b_insert (b_remove b 0 n) text else b in
                    Some (negb om, g_suppressed g b', b')
                | _, _ => None
                end
            end
          else
            match g_endword g with
            | None => None
            | Some endword =>
            (* 646-661 *)
            match (if Nat.ltb off endword
                   then match compare (cstr line) (Some endword) off (cstr text) (Some (length text)) 0 with
                        | None => None
                        | Some (p, q) => match more (cstr line) (Some endword) p with
                                         | None => None
                                         | Some om => Some (om, q)
                                         end
                        end
                   else Some (false, 0)) with
            | None => None
            | Some (true, _) => Some (false, g_clear g, b)
            | Some (false, q0) =>
              let replace := Nat.max endword off in
              (* 667-683 *)
              let quote := match endword with
                           | O => Some false
                           | S k => match nth_error (cstr line) k with
                                    | Some c => Some (c =? 34)%N
                                    | None => None
                                    end
                           end in
              match quote with
              | None => None
              | Some quote =>
              match (if Nat.ltb replace n then track fuel line text off replace q0 quote else Some (q0, quote)) with
              | None => None
              | Some (q, quote) =>
                insert_rest fuel a g b off text endword q0 q quote
              end
              end
            end
            end
          end
    | _ => Some (false, g, b)
    end.

(** suggestion_manager::set (453-557), where [news] is the vector given (None: nullptr).  u_items of a replaced
    vector are moved; its m_line is empty in all callers (internal_api.cpp 798-875, rl_commands.cpp 1988). *)
Definition same_item (x y : item) : bool :=
  (if list_eq_dec N.eq_dec (i_text x) (i_text y) then true else false) && Nat.eqb (i_off x) (i_off y) &&
  (if list_eq_dec N.eq_dec (i_src x) (i_src y) then true else false).
Fixpoint same_items (xs ys : list item) : bool :=
  match xs, ys with
  | [], [] => true
  | x :: xs, y :: ys => same_item x y && same_items xs ys
  | _, _ => false
  end.
Definition set_none (line : list N) (g : mgr) : mgr :=
  let g := g_clear g in
  let gen := next_gen (g_gen g) in
  mkMgr None line (u_set_line (mkSugs [] [] gen false) line) (g_endword g) (g_paused g) (g_suppress g) gen.
Definition set (line : list N) (endword : nat) (news : list item) (g : mgr) : option mgr :=
  if same_items (u_items (g_sugs g)) news && (match g_endword g with Some w => Nat.eqb w endword | None => false end) &&
     (if list_eq_dec N.eq_dec (u_line (g_sugs g)) line then true else false)
  then Some g
  else
    let bad i := Nat.ltb (length line) (i_off i) in
    let dirty := existsb bad news in
    let news := filter (fun i => negb (bad i)) news in
    match news with
    | [] => Some (set_none line g)
    | first :: _ =>
        if negb (e_enable e) then Some (set_none line g)
        else
          let gen := next_gen (g_gen g) in
          let done it := Some (mkMgr it line (u_set_line (mkSugs [] news gen dirty) line) (Some endword)
                                     (g_paused g) (g_suppress g) gen) in
          if e_list_enabled e then done None
          else
            match compare (cstr line) None (i_off first) (cstr (i_text first)) None 0 with
            | None => None
            | Some (p, q) =>
                match more (cstr line) None p with
                | None => None
                | Some true => Some (set_none line (mkMgr (g_iter g) (g_started g) (g_sugs g) (g_endword g) (g_paused g) (g_suppress g) gen))
                | Some false => done (Some q)
                end
            end
    end.

(** suggestion_manager::get (560-570); is_same (136-163) compares the generations. *)
Definition get (g : mgr) (out : sugs) : bool * sugs :=
  if negb (e_enable e) then (false, u_clear 0)
  else (true, if (u_gen (g_sugs g) =? u_gen out)%N then out else u_copy (g_sugs g)).

(** suggestion_manager::can_suggest (334-394).  [busy]: Readline is searching, reading a string or in a macro (345-351);
    [selected]: there is a selection (363); [rubbed]: the last command was a rubout (376-378). *)
Definition can_suggest (busy selected rubbed : bool) (endword : nat) (g : mgr) (b : buf) : bool * mgr :=
  if g_paused g then (false, g)
  else if busy then (false, g_clear g)
  else if negb (Nat.eqb (b_cur b) (length (b_text b))) then (false, g_clear g)
  else if selected then (false, g)
  else
    let diff := negb (if list_eq_dec N.eq_dec (u_line (g_sugs g)) (b_text b) then true else false) in
    let with_endword g := mkMgr (g_iter g) (g_started g) (g_sugs g) (Some endword) (g_paused g) (g_suppress g) (g_gen g) in
    if g_suppress g then
      if rubbed then (false, g_suppressed g b)
      else if diff then (diff, with_endword (g_clear g))
      else (false, g)
    else (diff, with_endword g).
End Sug.
