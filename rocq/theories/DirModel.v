(** Model of the directory history (clink/app/src/host/host.cpp 222-314).  Entries are the texts of directories (lists of bytes,
    without NUL); the list runs from the oldest entry to the newest.  Memory is assumed to suffice. *)
From Verif Require Import Base CmpModel PathModel CdModel.
Local Open Scope N_scope.

(** directories.dupe_mode (108-117) *)
Inductive dupe_mode := add | erase_prev.
(** c_max_dir_history (244) *)
Definition max_dir_history : nat := 100.
(** 258-266: every entry that is the current directory (_stricmp) is erased. *)
Fixpoint erase (cwd : text) (h : list text) : list text :=
  match h with [] => [] | d :: r => if iequals d cwd then erase cwd r else d :: erase cwd r end.
(** 284-285 *)
Fixpoint trim (fuel : nat) (h : list text) : list text :=
  match fuel with
  | O => h
  | S k => if (max_dir_history <? length h)%nat then trim k (tl h) else h
  end.
(** update_dir_history (248-286) *)
Definition update (m : dupe_mode) (cwd : text) (h : list text) : list text :=
  let h := match m with erase_prev => erase cwd h | add => h end in
  let adding := match h with [] => true | _ => negb (iequals (last h []) cwd) end in
  let h := if adding then h ++ [cwd] else h in
  trim (length h) h.
(** prev_dir_history (289-300): the second entry from the end; the command is empty without it. *)
Definition prev_dir_history (cwd : text) (h : list text) : text :=
  if (length h <? 2)%nat then []
  else match rev h with _ :: d :: _ => make_cd_command cwd d | _ => [] end.
(** host_remove_dir_history (303-314) *)
Fixpoint remove_dir (h : list text) (index : Z) : bool * list text :=
  match h with
  | [] => (false, [])
  | d :: r => if (index =? 0)%Z then (true, r) else let (b, r) := remove_dir r (index - 1) in (b, d :: r)
  end.
(** The prompts seen, each with the setting and the current directory at its time. *)
Definition prompts (l : list (dupe_mode * text)) : list text := fold_left (fun h mc => update (fst mc) (snd mc) h) l [].
Inductive event := prompt (m : dupe_mode) (cwd : text) | removal (index : Z).
Definition happen (h : list text) (e : event) : list text :=
  match e with prompt m c => update m c h | removal i => snd (remove_dir h i) end.
