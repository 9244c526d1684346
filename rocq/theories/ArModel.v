(** Argmatchers: which argument slot, flags or linked argmatcher a word belongs to, and what is offered for the last word
    (clink/lua/scripts/arguments.lua 362-500, 631-1007, 1095-1169, 1372-1450, 1507-1530, 1857-1873, 2053-2258). There are no
    callbacks (onadvance, onalias, onarg, onlink, delayinit, functions as arguments), no loopchars, no chaincommand, no
    expanded aliases; no word ends with : or =, none holds nowordbreakchars (692-721), and slashes are not translated. *)
From Verif Require Import Base.
Open Scope nat_scope.

Definition text := list N.
(** an argmatcher: _args with the _links of each, _flags with its links, _flagprefix, _loop (-1 as 0), _no_file_generation,
    whether _flagsanywhere is not false, _endofflags *)
Record matcher := mkM { m_slots : list (list (text * nat)); m_flags : option (list (text * nat)); m_prefix : list N; m_loop : option nat;
  m_nofiles : bool; m_anywhere : bool; m_end : option text }.
(** the words of the line after the command word, with info.redir *)
Record word := mkW { w_text : text; w_redir : bool }.
Fixpoint text_eqb (a b : text) : bool := match a, b with [], [] => true | x :: a', y :: b' => (x =? y)%N && text_eqb a' b' | _, _ => false end.
(** arg._links[word], 515 *)
Fixpoint lookup (links : list (text * nat)) (w : text) : option nat :=
  match links with [] => None | (k, m) :: r => if text_eqb k w then Some m else lookup r w end.

Section Reader.
(** all argmatchers *)
Variable env : nat -> matcher.
(** self._matcher: an argmatcher, or the flags matcher of one *)
Inductive cursor := Main (m : nat) | Flags (m : nat).
Record frame := mkF { f_cur : cursor; f_idx : nat; f_real : nat; f_noflags : bool }.
Record reader := mkR { r_top : frame; r_stack : list frame }.
Definition args_of (c : cursor) : list (list (text * nat)) :=
  match c with Main m => m_slots (env m) | Flags m => match m_flags (env m) with Some l => [l] | None => [] end end.
Definition flags_of (c : cursor) : option (list (text * nat)) := match c with Main m => m_flags (env m) | Flags _ => None end.
Definition loop_of (c : cursor) : option nat := match c with Main m => m_loop (env m) | Flags _ => None end.
Definition nofiles_of (c : cursor) : bool := match c with Main m => m_nofiles (env m) | Flags _ => false end.
Definition has_flags (c : cursor) : bool := match flags_of c with Some _ => true | None => false end.
(** _argmatcher:_is_flag, 1857-1873 *)
Definition is_flag_word (c : cursor) (w : text) : bool :=
  match w, c with x :: _, Main m => existsb (N.eqb x) (m_prefix (env m)) | _, _ => false end.
Definition long (w : text) : bool := (2 <=? length w).
(** _argreader:_push, 1095-1117 *)
Definition push (r : reader) (c : cursor) (real : nat) : reader := mkR (mkF c 1 real false) (r_top r :: r_stack r).
(** the loop of _argreader:_pop, 1127-1160 *)
Fixpoint pop_loop (nf : bool) (top : frame) (stack : list frame) : bool * reader :=
  match stack with
  | [] => (true, mkR top [])
  | f :: s =>
      if nofiles_of (f_cur top) then (false, mkR top stack)
      else match loop_of (f_cur f) with
      | Some _ => (true, mkR f s)
      | None =>
          if nf && has_flags (f_cur f) then (true, mkR f s)
          else if f_idx f <=? length (args_of (f_cur f)) then (true, mkR f s)
          else if (length (args_of (f_cur f)) =? 0) && has_flags (f_cur f) && (nf || (f_idx f =? 1)) then (true, mkR f s)
          else pop_loop nf f s
      end
  end.
(** 1121-1169 *)
Definition pop (nf : bool) (r : reader) : bool * reader := match r_stack r with [] => (false, r) | _ => pop_loop nf (r_top r) (r_stack r) end.
Definition set_idx (r : reader) (i : nat) : reader := mkR (mkF (f_cur (r_top r)) i (f_real (r_top r)) (f_noflags (r_top r))) (r_stack r).
Definition set_noflags (r : reader) : reader := mkR (mkF (f_cur (r_top r)) (f_idx (r_top r)) (f_real (r_top r)) true) (r_stack r).
Definition arg_at (c : cursor) (i : nat) : option (list (text * nat)) := match i with O => None | S j => nth_error (args_of c) j end.
Definition main_of (c : cursor) : nat := match c with Main m | Flags m => m end.
Definition is_end (c : cursor) (w : text) : bool := match c with Main m => match m_end (env m) with Some e => text_eqb w e | None => false end | _ => false end.
(** 726-727, for a word that is not the last *)
Definition is_flag_here (r : reader) (w : text) : bool := negb (f_noflags (r_top r)) && is_flag_word (f_cur (r_top r)) w && has_flags (f_cur (r_top r)) && long w.
(** 884-911 *)
Definition advance (is_flag nf : bool) (r : reader) : reader :=
  let t := r_top r in
  let next := S (f_idx t) in
  if length (args_of (f_cur t)) <? next then
    match loop_of (f_cur t) with
    | Some l => set_idx r (Nat.min (Nat.max l 1) (length (args_of (f_cur t))))
    | None => if is_flag then set_idx r next else if nf then set_idx r next else let '(ok, r') := pop nf r in if ok then r' else set_idx r' next
    end
  else set_idx r next.
(** update, 631-1007, of a word that is not the last; [next] follows, [last]: it is the last *)
Definition update (r : reader) (w next : text) (last : bool) : reader :=
  let old := f_cur (r_top r) in
  let is_flag := is_flag_here r w in
  let r := if is_flag then push (if is_end old w then set_noflags r else r) (match old with Main m => Flags m | c => c end) (main_of old) else r in
  let stop := negb is_flag && negb (m_anywhere (env (f_real (r_top r)))) in
  let r := if stop then set_noflags r else r in
  let nf := negb stop && negb (f_noflags (r_top r)) && is_flag_word old next && (long next || last) in
  let cur := f_cur (r_top r) in
  let arg := arg_at cur (f_idx (r_top r)) in
  let r := advance is_flag nf r in
  match arg with
  | None => r
  | Some links =>
      match lookup links w with
      | Some m => push r (Main m) m
      | None => if is_flag then snd (pop nf r) else r
      end
  end.
(** start_command, 362-396 *)
Definition start (m : nat) : reader := mkR (mkF (Main m) 1 m false) [].
(** 2058-2070: the words but the last *)
Fixpoint read (r : reader) (ws : list text) (end_word : text) : reader :=
  match ws with
  | [] => r
  | w :: ws' => read (update r w (match ws' with [] => end_word | x :: _ => x end) (match ws' with [] => true | _ => false end)) ws' end_word
  end.
(** what is offered: the flags of an argmatcher, a slot of one, what other generators and files give, nothing *)
Inductive offer := OFlags (m : nat) | OSlot (m i : nat) | OFiles | ONothing.
(** 2199-2258 *)
Definition offered (r : reader) (w : word) : offer :=
  let t := r_top r in
  if w_redir w then OFiles
  else if negb (f_noflags t) && has_flags (f_cur t) && is_flag_word (f_cur t) (w_text w) then OFlags (main_of (f_cur t))
  else match arg_at (f_cur t) (f_idx t) with
  | Some _ => OSlot (main_of (f_cur t)) (f_idx t)
  | None => if nofiles_of (f_cur t) || ((length (args_of (f_cur t)) =? 0) && negb (has_flags (f_cur t))) then ONothing else OFiles
  end.
(** _generate, 2053-2258, with next_word(true), 465-497, which skips no word *)
Definition generate (m : nat) (ws : list word) (end_word : word) : offer := offered (read (start m) (map w_text ws) (w_text end_word)) end_word.
End Reader.

(** making an argmatcher: the choices of the slots, with nosort, and _nextargindex *)
Record making := mkMk { k_slots : list (list text * bool); k_next : nat }.
Fixpoint at_slot {A} (l : list A) (i : nat) (f : A -> A) : list A := match l, i with [], _ => [] | x :: r, O => f x :: r | x :: r, S j => x :: at_slot r j f end.
(** addarg, 1372-1383; _nextargindex is 1 + k_next *)
Definition addarg (b : making) (l : list text) : making :=
  if k_next b <? length (k_slots b) then mkMk (at_slot (k_slots b) (k_next b) (fun x => (fst x ++ l, snd x))) (S (k_next b))
  else mkMk (k_slots b ++ [(l, false)]) (S (length (k_slots b))).
(** addargunsorted, 1392-1397; None: the error of indexing nil *)
Definition addargunsorted (b : making) (l : list text) : option making :=
  let there := k_next b <? length (k_slots b) in
  let i := k_next b in
  let b := addarg b l in
  if there then Some (mkMk (at_slot (k_slots b) i (fun x => (fst x, true))) (k_next b)) else None.
(** clink.argmatcher for a new command, and again for the same one, 2446-2451 *)
Definition fresh : making := mkMk [] 0.
Definition again (b : making) : making := mkMk (k_slots b) 0.
