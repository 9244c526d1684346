(** Coroutines and the processes they wait for (clink/lua/scripts/coroutines.lua; the threads that watch the processes:
    clink/lua/src/yield.cpp 100-136, clink/lua/src/io_api.cpp 227-328; what resumes coroutines: clink/lua/src/lua_input_idle.cpp
    83-185, clink/terminal/src/win_terminal_in.cpp 1206-1253). Intervals are 0 and throttling is off, so that every coroutine is due
    whenever coroutines are resumed; coroutines do not use asyncyield; a coroutine calls popenyield, the pclose it was given
    last and coroutine.yield, and ends; the process is spawned. *)
From Coq Require Import Permutation.
From Verif Require Import Base.
Open Scope nat_scope.

(** what a coroutine does: io.popenyield or os.execute, pclose, coroutine.yield *)
Inductive act := APopen | AClose | AYield.
(** where a coroutine is: to do [l]; in the loop 921-926; in the loop 948-953 or 970-974 for a yieldguard; at its end *)
Inductive phase := Run (l : list act) | Queue (l : list act) | Guard (y : nat) (l : list act) | Closing (y : nat) (l : list act) | Dead.
(** a yieldguard with its thread: m_ready_event, m_stat_event, m_need_completion; and for which coroutine it was made *)
Record proc := mkP { p_cat : option nat; p_owner : nat; p_out : bool; p_stat : bool; p_need : bool }.
(** an entry of _coroutines, 28-52: yield_category, generation, untilcomplete, yieldguard, queued, canceled; [e_file]: the
    yieldguard of the pclose that can be used *)
Record entry := mkE { e_id : nat; e_cat : option nat; e_gen : nat; e_until : bool; e_guard : option nat; e_queued : bool; e_canceled : bool; e_file : option nat; e_phase : phase }.
(** _coroutines, _coroutine_yieldguard (category or none, coroutine, yieldguard), _coroutine_generation, all yieldguards, the
    idle event, the next identity *)
Record st := mkS { s_entries : list entry; s_cyg : list (option nat * nat * nat); s_gen : nat; s_procs : list proc; s_idle : bool; s_next : nat }.

Definition set_entries (s : st) (l : list entry) : st := mkS l (s_cyg s) (s_gen s) (s_procs s) (s_idle s) (s_next s).
Definition set_cyg (s : st) (l : list (option nat * nat * nat)) : st := mkS (s_entries s) l (s_gen s) (s_procs s) (s_idle s) (s_next s).
Definition set_procs (s : st) (l : list proc) : st := mkS (s_entries s) (s_cyg s) (s_gen s) l (s_idle s) (s_next s).
Definition set_idle (s : st) (b : bool) : st := mkS (s_entries s) (s_cyg s) (s_gen s) (s_procs s) b (s_next s).
Definition find_entry (l : list entry) (c : nat) : option entry := find (fun e => e_id e =? c) l.
Definition upd (l : list entry) (c : nat) (f : entry -> entry) : list entry := map (fun e => if e_id e =? c then f e else e) l.
Definition with_guard (g : option nat) (e : entry) : entry := mkE (e_id e) (e_cat e) (e_gen e) (e_until e) g (e_queued e) (e_canceled e) (e_file e) (e_phase e).
Definition with_queued (q : bool) (e : entry) : entry := mkE (e_id e) (e_cat e) (e_gen e) (e_until e) (e_guard e) q (e_canceled e) (e_file e) (e_phase e).
Definition with_canceled (e : entry) : entry := mkE (e_id e) (e_cat e) (e_gen e) (e_until e) (e_guard e) (e_queued e) true (e_file e) (e_phase e).
Definition with_file (f : option nat) (e : entry) : entry := mkE (e_id e) (e_cat e) (e_gen e) (e_until e) (e_guard e) (e_queued e) (e_canceled e) f (e_phase e).
Definition with_phase (p : phase) (e : entry) : entry := mkE (e_id e) (e_cat e) (e_gen e) (e_until e) (e_guard e) (e_queued e) (e_canceled e) (e_file e) p.
Definition change (s : st) (c : nat) (f : entry -> entry) : st := set_entries s (upd (s_entries s) c f).

(** yield_thread::is_ready, yield.cpp 76-82, with popen_buffering::get_ready_event, io_api.cpp 266-271 *)
Definition ready (ps : list proc) (y : nat) : bool := match nth_error ps y with Some p => if p_need p then p_stat p else p_out p | None => false end.
Definition is_guard (g : option nat) (y : nat) : bool := match g with Some z => z =? y | None => false end.
(** the field category of an entry, which 104 reads: entries made by coroutine.create (1091-1105) have none *)
Definition category_field (e : entry) : option nat := None.
Definition same_category (a b : option nat) : bool := match a, b with Some x, Some y => x =? y | _, _ => false end.
(** 103-108 *)
Fixpoint dequeue (k : option nat) (l : list entry) : list entry :=
  match l with
  | [] => []
  | e :: l' => if e_queued e && same_category (category_field e) k then with_queued false e :: l' else e :: dequeue k l'
  end.
(** release_coroutine_yieldguard, 92-115 *)
Fixpoint release_loop (ps : list proc) (items : list (option nat * nat * nat)) (l : list entry) : list entry * list (option nat * nat * nat) :=
  match items with
  | [] => (l, [])
  | (k, c, y) :: r =>
      if ready ps y && match find_entry l c with Some e => is_guard (e_guard e) y | None => false end
      then release_loop ps r (dequeue k (upd l c (with_guard None)))
      else let '(l', kept) := release_loop ps r l in (l', (k, c, y) :: kept)
  end.
Definition release (s : st) : st := let '(l, kept) := release_loop (s_procs s) (s_cyg s) (s_entries s) in set_cyg (set_entries s l) kept.
Definition key_is (k : nat) (x : option nat * nat * nat) : bool := match x with (Some j, _, _) => j =? k | _ => false end.
(** _coroutine_yieldguard[category], 919 *)
Definition busy (s : st) (cat : option nat) : bool := match cat with Some k => existsb (key_is k) (s_cyg s) | None => false end.
(** set_coroutine_yieldguard, 132-148, with a yieldguard *)
Definition set_guard (s : st) (c : nat) (cat : option nat) (y : nat) : st :=
  change (set_cyg s (match cat with Some k => (Some k, c, y) :: filter (fun x => negb (key_is k x)) (s_cyg s) | None => s_cyg s ++ [(None, c, y)] end)) c (with_guard (Some y)).
(** and with nil *)
Definition end_guard (s : st) (c : nat) : st := change (release s) c (with_guard None).
(** check_generation, 165-174 *)
Definition current (s : st) (e : entry) : bool := (e_gen e =? s_gen s) || e_until e.
Definition change_proc (s : st) (y : nat) (f : proc -> proc) : st := set_procs s (map (fun '(i, p) => if i =? y then f p else p) (combine (seq 0 (length (s_procs s))) (s_procs s))).
(** popen_buffering::set_need_completion, io_api.cpp 273-276 *)
Definition set_need (s : st) (y : nat) : st := change_proc s y (fun p => mkP (p_cat p) (p_owner p) (p_out p) (p_stat p) true).
(** 932-948: the generation is checked (an error ends the coroutine), the process spawned; the thread has not finished yet *)
Definition start (s : st) (c : nat) (l : list act) : st :=
  match find_entry (s_entries s) c with
  | None => s
  | Some e =>
      if current s e then
        let y := length (s_procs s) in
        let s := set_procs s (s_procs s ++ [mkP (e_cat e) c false false false]) in
        change (set_guard s c (e_cat e) y) c (fun e => with_file None (with_phase (Guard y l) e))
      else change s c (fun e => with_canceled (with_phase Dead e))
  end.
Definition cat_of (s : st) (c : nat) : option nat := match find_entry (s_entries s) c with Some e => e_cat e | None => None end.
Definition file_of (s : st) (c : nat) : option nat := match find_entry (s_entries s) c with Some e => e_file e | None => None end.
(** io.popenyield, 904-981, and what the coroutine does next, up to the next yield or its end *)
Fixpoint exec (l : list act) (s : st) (c : nat) : st :=
  match l with
  | [] => change s c (with_phase Dead)
  | AYield :: l' => change s c (with_phase (Run l'))
  | APopen :: l' =>
      if busy s (cat_of s c) then change s c (fun e => with_queued true (with_phase (Queue l') e)) else start s c l'
  | AClose :: l' =>
      match file_of s c with
      | None => exec l' s c
      | Some y =>
          let s := set_guard (set_need (change s c (with_file None)) y) c (cat_of s c) y in
          if ready (s_procs s) y then exec l' (end_guard s c) c else change s c (with_phase (Closing y l'))
      end
  end.
(** coroutine.resume *)
Definition resume (s : st) (c : nat) : st :=
  match find_entry (s_entries s) c with
  | None => s
  | Some e =>
      match e_phase e with
      | Dead => s
      | Run l => exec l s c
      | Queue l =>
          if e_canceled e then exec l (change s c (with_queued false)) c
          else if busy s (e_cat e) then s
          else start (change s c (with_queued false)) c l
      | Guard y l => if ready (s_procs s) y then exec l (change (end_guard s c) c (with_file (Some y))) c else s
      | Closing y l => if ready (s_procs s) y then exec l (end_guard s c) c else s
      end
  end.
(** clink.removecoroutine, 707-735 *)
Definition remove_co (s : st) (c : nat) : st := let s := release s in set_entries s (filter (fun e => negb (e_id e =? c)) (s_entries s)).
Definition is_dead (e : entry) : bool := match e_phase e with Dead => true | _ => false end.
(** 300-307 *)
Definition obsolete (s : st) (e : entry) : bool := is_dead e || (negb (current s e) && match e_guard e with None => true | Some y => ready (s_procs s) y end).
Definition purge (s : st) : st := fold_left remove_co (map e_id (filter (obsolete s) (s_entries s))) s.
(** _resume_coroutines, 286-388; [order]: in which the entries are visited *)
Definition pass (order : list nat) (s : st) : st :=
  let s := fold_left resume order (purge s) in
  fold_left remove_co (map e_id (filter is_dead (s_entries s))) s.
(** _wait_duration, 244-267, whether there is a target, and get_timeout, lua_input_idle.cpp 83-131 *)
Definition due (s : st) : bool := existsb (fun e => match e_guard e with None => negb (e_queued e) | Some _ => false end) (s_entries (release s)).
(** clear_coroutines, 55-88 *)
Definition new_line (s : st) : st :=
  mkS (filter (fun e => existsb (fun x => snd (fst x) =? e_id e) (s_cyg s) || e_until e) (s_entries s)) (s_cyg s) (S (s_gen s)) (s_procs s) (s_idle s) (s_next s).
(** coroutine.create, 1072-1117 *)
Definition create (cat : option nat) (until : bool) (l : list act) (s : st) : st :=
  mkS (s_entries s ++ [mkE (s_next s) cat (s_gen s) until None false false None (Run l)]) (s_cyg s) (s_gen s) (s_procs s) (s_idle s) (S (s_next s)).

(** What happens: scripts and the user (1-4), the threads (5, 6), waiting for input (7-9). *)
Inductive event := ECreate (cat : option nat) (until : bool) (l : list act) | ENewLine | ECancel (c : nat) | ERemove (c : nat)
  | EOut (y : nat) | EExit (y : nat) | EWait | EPassIdle (order : list nat) | EPassTimeout (order : list nat).
Definition ids (s : st) : list nat := map e_id (s_entries s).
Inductive step (s : st) : event -> st -> Prop :=
| st_create cat until l : step s (ECreate cat until l) (create cat until l s)
| st_line : step s ENewLine (new_line s)
| st_cancel c : step s (ECancel c) (change s c with_canceled)
| st_remove c : step s (ERemove c) (remove_co s c)
| st_out y p : nth_error (s_procs s) y = Some p -> p_out p = false -> step s (EOut y) (change_proc s y (fun p => mkP (p_cat p) (p_owner p) true (p_stat p) (p_need p)))
| st_exit y p : nth_error (s_procs s) y = Some p -> p_out p = true -> p_stat p = false -> step s (EExit y) (set_idle (change_proc s y (fun p => mkP (p_cat p) (p_owner p) (p_out p) true (p_need p))) true)
| st_wait : step s EWait (release s)
| st_idle order : s_idle s = true -> Permutation order (ids (purge s)) -> step s (EPassIdle order) (pass order (set_idle s false))
| st_timeout order : due s = true -> Permutation order (ids (purge (release s))) -> step s (EPassTimeout order) (pass order (release s)).
Definition init : st := mkS [] [] 0 [] false 0.
Inductive run : st -> list event -> st -> Prop :=
| run_nil s : run s [] s
| run_step s e s1 l s2 : step s e s1 -> run s1 l s2 -> run s (e :: l) s2.
