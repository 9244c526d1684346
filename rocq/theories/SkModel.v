(** history.sticky_search: the history position that is kept from one prompt to the next (clink/lib/src/sticky_search.cpp, with Up, Down and Enter
    of readline/readline/misc.c 360-760, readline.c 491-520 and history.c 176-240, and clink/app/src/host/host.cpp 1230-1249). *)
From Verif Require Import Base.

Definition text := list N.
Definition text_eqb (a b : text) : bool := if list_eq_dec N.eq_dec a b then true else false.
(** rl_undo_list and the data of a history entry: which list it is, and the text that undoing all of it gives *)
Definition undo := option (nat * text).
Definition undo_eqb (a b : undo) : bool := match a, b with None, None => true | Some (i, _), Some (j, _) => (i =? j)%nat | _, _ => false end.
(** the_history, history_offset, history_prev_use_curr, rl_line_buffer, rl_undo_list, _rl_saved_line_for_history, s_init_history_pos; the last
    field tells undo lists apart *)
Record st := mk { es : list (text * undo); off : nat; use : bool; line : text; und : undo; saved : option (text * undo); init : option nat; fresh : nat }.
Definition put {A} (l : list A) (n : nat) (x : A) : list A := if (n <? length l)%nat then firstn n l ++ x :: skipn (S n) l else l.
(** _rl_maybe_replace_line (1), misc.c 376-402; the undo list of the saved line is never that of an entry *)
Definition replace_line (s : st) : st :=
  match nth_error (es s) (off s) with
  | Some (_, d) => if undo_eqb d (und s) then s else mk (put (es s) (off s) (line s, und s)) (off s) (use s) (line s) None (saved s) (init s) (fresh s)
  | None => s
  end.
(** rl_replace_from_history, misc.c 500-519 *)
Definition from_history (s : st) (o : nat) (e : text * undo) : st := mk (es s) o false (fst e) (snd e) (saved s) (init s) (fresh s).
(** rl_get_previous_history (1), misc.c 702-790; Clink's reading of history_prev_use_curr at 705-727 *)
Definition up (s : st) : st :=
  if (length (es s) =? 0)%nat then s
  else
    let had := saved s in
    let s := mk (es s) (off s) (use s) (line s) (und s) (match saved s with None => Some (line s, und s) | x => x end) (init s) (fresh s) in
    let s := replace_line s in
    let o := if use s then Some (off s) else match off s with O => None | S o => Some o end in
    match o with
    | None => mk (es s) (off s) false (line s) (und s) had (init s) (fresh s)
    | Some o => match nth_error (es s) o with Some e => from_history s o e | None => mk (es s) o false (line s) (und s) had (init s) (fresh s) end
    end.
(** rl_get_next_history (1), misc.c 641-700; next_history, history.c 224-228; rl_maybe_unsave_line, misc.c 423-435 *)
Definition down (s : st) : st :=
  let s := replace_line s in
  let o := if (off s =? length (es s))%nat then off s else S (off s) in
  match (if (off s =? length (es s))%nat then None else nth_error (es s) o) with
  | Some e => from_history s o e
  | None => match saved s with
            | Some (t, u) => mk (es s) o false t u None (init s) (fresh s)
            | None => mk (es s) o false (line s) (und s) None (init s) (fresh s)
            end
  end.
(** a change of the line by typing or deleting: buffer_changing, rl_module.cpp 1374-1390, and the undo entry *)
Definition edit (t : text) (s : st) : st :=
  let clear := match init s with Some _ => true | None => false end in
  let gone := clear && match line s with [] => true | _ => false end in
  mk (es s) (if gone then length (es s) else off s) (if clear then false else use s) t
     (Some (fresh s, match und s with Some (_, b) => b | None => line s end)) (saved s) None (S (fresh s)).
Inductive key := Up | Down | Edit (t : text).
Definition press (s : st) (k : key) : st := match k with Up => up s | Down => down s | Edit t => edit t s end.

Section Prompt.
(** history_db::add of a line that is not empty *)
Variable add : list text -> text -> list text.
(** load_rl_history (history_db.cpp 1536-1560) and restore_sticky_search_position (sticky_search.cpp 68-80), at a new prompt *)
Definition begin (h : list text) (i : option nat) : st :=
  let l := map (fun t => (t, None)) h in
  match i with
  | Some p => mk l (if (p <=? length l)%nat then p else length l) true [] None None i 0
  | None => mk l (length l) false [] None None None 0
  end.
(** Enter: readline_common_teardown (readline.c 491-520), save_sticky_search_position (sticky_search.cpp 34-56) with no history search, and
    host.cpp 1230-1249; gives the history and the position for the next prompt, and the line *)
Definition enter (h : list text) (s : st) : list text * option nat * text :=
  let l := match nth_error (es s) (off s), und s with Some _, Some (_, b) => put (es s) (off s) (b, None) | _, _ => es s end in
  let i := if (off s <? length l)%nat then Some (off s) else init s in
  let same := match line s, i with
              | [], _ => false
              | _, Some p => match nth_error l p with Some (t, _) => text_eqb t (line s) | None => false end
              | _, None => false
              end in
  if same then (h, i, line s) else (match line s with [] => h | _ => add h (line s) end, None, line s).
Definition prompt (h : list text) (i : option nat) (ks : list key) : list text * option nat * text := enter h (fold_left press ks (begin h i)).
(** several prompts: the lines they give *)
Fixpoint session (h : list text) (i : option nat) (ps : list (list key)) : list text * option nat * list text :=
  match ps with
  | [] => (h, i, [])
  | ks :: ps' => let '(h', i', t) := prompt h i ks in let '(h'', i'', l) := session h' i' ps' in (h'', i'', t :: l)
  end.
End Prompt.
