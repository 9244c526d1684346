(** The pager behind clink-show-help and the other listings of key bindings.
    Modelled: pager_impl (clink/lib/src/pager_impl.cpp:44-156), the part of line_editor_impl::dispatch and
    update_input that decides when the pager's question is answered (clink/lib/src/line_editor_impl.cpp:787-819
    and 872-1042), print_warnings and the loop of show_key_bindings (clink/lib/src/rl/rl_help.cpp:1213-1255 and
    1412-1453).  Simplified: what an entry looks like is not modelled, an entry is a number and the count of rows
    show_key_bindings tells the pager; key sequences are taken as already resolved by the binder (BindModel). *)
From Verif Require Import Base.

(** What can end a wait for input while "-- More --" is shown: the bindings of pager_impl.cpp:45-66, a change of the
    size of the terminal (line_editor_impl.cpp:897, 931), and a signal (line_editor_impl.cpp:874). *)
Inductive key := Help | Page | Half | One | Stop | Other | Resized (rows : Z) | Break.

(** An entry to print: its name, and the rows counted for it (rl_help.cpp:1232, 1434-1449). *)
Definition entry : Type := (nat * Z)%type.

(** What can be seen: an entry is printed, or the pager asks. *)
Inductive event := Shown (e : entry) | More.

(** The rows of the terminal, m_max, and the input to come. *)
Record pager := mk { p_rows : Z; p_max : Z; p_keys : list key }.

(** pager_impl.cpp:146-156 set_limit *)
Inductive amount := line | half_page | page | first_page.
Definition set_limit (rows : Z) (a : amount) : Z :=
  match a with
  | line => 1
  | half_page => Z.max (rows / 2) 0
  | page => Z.max (rows - 2) 0
  | first_page => Z.max (rows - 1) 0
  end.

(** line_editor_impl.cpp:787-819 with pager_impl.cpp:85-98 on_input: keys are read until one does not loop.  None: no
    input is left, the pager keeps waiting.  The flag tells of a signal. *)
Fixpoint dispatch (rows max : Z) (ks : list key) : option (pager * bool) :=
  match ks with
  | [] => None
  | Help :: t | Other :: t => dispatch rows max t
  | Page :: t => Some (mk rows (set_limit rows page) t, false)
  | Half :: t => Some (mk rows (set_limit rows half_page) t, false)
  | One :: t => Some (mk rows (set_limit rows line) t, false)
  | Stop :: t => Some (mk rows (-1) t, false)
  | Resized r :: t => Some (mk r max t, false)
  | Break :: t => Some (mk rows max t, true)
  end.

(** pager_impl.cpp:116-119 start_pager *)
Definition start_pager (rows : Z) (ks : list key) : pager := mk rows (set_limit rows first_page) ks.

(** What on_print_lines answers, unless the user never does. *)
Inductive answer := Go (p : pager) | Halt | Wait.

(** pager_impl.cpp:122-143 on_print_lines; the flag tells whether it asked. *)
Definition on_print_lines (p : pager) (lines : Z) : bool * answer :=
  if (p_max p <? 0)%Z then (false, Halt)
  else if (p_max p =? 0)%Z then (false, Go p)
  else let m := (p_max p - lines)%Z in
  if (0 <? m)%Z then (false, Go (mk (p_rows p) m (p_keys p)))
  else (true,
    match dispatch (p_rows p) 0 (p_keys p) with
    | None => Wait
    | Some (p', signaled) => if signaled then Halt else if (0 <=? p_max p')%Z then Go p' else Halt
    end).

(** rl_help.cpp:1226-1243 and 1425-1453: entries are printed as long as the pager agrees. *)
Fixpoint print_entries (p : pager) (es : list entry) : list event * answer :=
  match es with
  | [] => ([], Go p)
  | e :: r =>
      let '(asked, a) := on_print_lines p (snd e) in
      let m := if asked then [More] else [] in
      match a with
      | Go p' => let '(t, z) := print_entries p' r in (m ++ Shown e :: t, z)
      | x => (m, x)
      end
  end.

(** One thing after another, unless the first is stopped (rl_help.cpp:1419-1420: lines.clear()). *)
Definition andthen (x : list event * answer) (f : pager -> list event * answer) : list event * answer :=
  match x with
  | (t, Go p) => let '(t', z) := f p in (t ++ t', z)
  | _ => x
  end.

(** A blank row around the warnings (rl_help.cpp:1219-1222, 1245-1251). *)
Definition blank : entry := (0%nat, 1%Z).

(** rl_help.cpp:1213-1255 print_warnings *)
Definition print_warnings (p : pager) (ws : list entry) : list event * answer :=
  match ws with
  | [] => ([], Go p)
  | _ => andthen (print_entries p [blank]) (fun p1 => andthen (print_entries p1 ws) (fun p2 => print_entries p2 [blank]))
  end.

(** rl_help.cpp:1412-1453 *)
Definition show_key_bindings (rows : Z) (ks : list key) (ws ls : list entry) : list event * answer :=
  andthen (print_warnings (start_pager rows ks) ws) (fun p => print_entries p ls).
