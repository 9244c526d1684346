(** Model of the file locks taken by history operations (clink/lib/src/history_db.cpp).

    Only the order of LockFileEx/UnlockFileEx calls matters here, so an operation is a list of acquisitions and
    releases.  LockFileEx without LOCKFILE_FAIL_IMMEDIATELY blocks, and handles of one process conflict like handles of
    different processes. *)
From Verif Require Import Base.

(** The files that are locked: the master lines, the lines of session j, the removals of session j. *)
Inductive lock := LM | LS (j : nat) | LR (j : nat).
Inductive mode := Sh | Ex.
Inductive instr := Acq (l : lock) (m : mode) | Rel (l : lock).

Definition lock_eqb (a b : lock) : bool :=
  match a, b with
  | LM, LM => true
  | LS i, LS j | LR i, LR j => Nat.eqb i j
  | _, _ => false
  end.

(** ** Lock scopes *)

(** A bank_lock (256-292): lines first, then removals; released in the opposite order.  [r]: there is a removals
    handle. *)
Definition bank_lock (lines : lock) (r : option lock) (m : mode) (body : list instr) : list instr :=
  Acq lines m :: match r with
                 | Some rl => Acq rl m :: body ++ [Rel rl; Rel lines]
                 | None => body ++ [Rel lines]
                 end.

(** get_bank (1371-1387) of session [i]: the master bank comes with the session's removals. *)
Definition master_scope (i : nat) (rem : bool) (m : mode) : list instr :=
  bank_lock LM (if rem then Some (LR i) else None) m [].
Definition session_scope (i : nat) (m : mode) : list instr := bank_lock (LS i) None m [].

(** What a process has open: session lines (not with a shared history), removals (erase_prev only). *)
Record handles := mkH { h_id : nat; h_lines : bool; h_rem : bool }.

(** for_each_bank (1390-1409); [first] tells whether the callback stops after the master bank. *)
Definition each_bank (h : handles) (m : mode) (first : bool) : list instr :=
  master_scope (h_id h) (h_rem h) m ++ (if first then [] else if h_lines h then session_scope (h_id h) m else []).

(** One session in reap (1262-1281): master without removals redirection, then the session's files. *)
Definition reap_one (j : nat) (rem : bool) : list instr :=
  bank_lock LM None Ex (bank_lock (LS j) (if rem then Some (LR j) else None) Sh []).

(** The last part of compact (1665-1757): the master stays locked while each session is read. *)
Definition compact_scope (js : list nat) : list instr :=
  bank_lock LM None Ex (flat_map (fun j => bank_lock (LS j) (Some (LR j)) Sh []) js).

(** ** Operations *)
Inductive op :=
| OInit (inject : bool)                  (* initialise: read the tag (1314), perhaps inject one (1321) *)
| OReap (js : list (nat * bool))         (* reap: the dead sessions, and whether they have removals *)
| OLoad                                  (* load_internal (1485) *)
| OClear                                 (* clear (1571) *)
| OFind (found : bool)                   (* find (1945): stops after the bank with the line *)
| ORemoveText                            (* remove(line) (1815) *)
| ORemoveId (master : bool)              (* remove(id) (1843) *)
| OAppend                                (* last scope of add (1793) *)
| OCompact (js : list nat).              (* compact after pruning (1665) *)

Definition op_prog (h : handles) (o : op) : list instr :=
  let i := h_id h in
  match o with
  | OInit inject => bank_lock LM None Sh [] ++ (if inject then bank_lock LM None Ex [] else [])
  | OReap js => flat_map (fun j => reap_one (fst j) (snd j)) js
  | OLoad => each_bank h Sh false
  | OClear | ORemoveText => each_bank h Ex false
  | OFind found => each_bank h Sh found
  | ORemoveId true => master_scope i (h_rem h) Ex
  | ORemoveId false => if h_lines h then session_scope i Ex else []
  | OAppend => if h_lines h then session_scope i Ex else master_scope i (h_rem h) Ex
  | OCompact js => compact_scope js
  end.

(** ** Processes *)
Record pst := mkPst { held : list (lock * mode); todo : list instr }.

Definition start (h : handles) (ops : list op) : pst := mkPst [] (flat_map (op_prog h) ops).

Definition compatible (m : mode) (l : lock) (h : lock * mode) : bool :=
  negb (lock_eqb (fst h) l) || match m, snd h with Sh, Sh => true | _, _ => false end.

(** LockFileEx returns only when no handle holds a conflicting lock. *)
Definition free (ps : list pst) (l : lock) (m : mode) : bool :=
  forallb (fun p => forallb (compatible m l) (held p)) ps.

Fixpoint drop (l : lock) (hs : list (lock * mode)) : list (lock * mode) :=
  match hs with
  | [] => []
  | h :: hs' => if lock_eqb (fst h) l then hs' else h :: drop l hs'
  end.

Fixpoint set_p (ps : list pst) (i : nat) (p : pst) : list pst :=
  match ps, i with
  | [], _ => []
  | _ :: ps', O => p :: ps'
  | q :: ps', S i' => q :: set_p ps' i' p
  end.

(** One instruction of process [i]; None: finished or blocked. *)
Definition pstep (ps : list pst) (i : nat) : option (list pst) :=
  match nth_error ps i with
  | None => None
  | Some p =>
      match todo p with
      | [] => None
      | Acq l m :: rest => if free ps l m then Some (set_p ps i (mkPst ((l, m) :: held p) rest)) else None
      | Rel l :: rest => Some (set_p ps i (mkPst (drop l (held p)) rest))
      end
  end.

(** States after any schedule; blocked choices are skipped. *)
Definition schedule (ps : list pst) (is : list nat) : list pst :=
  fold_left (fun ps i => match pstep ps i with Some ps' => ps' | None => ps end) is ps.
