(** Model of asynchronous tasks: async_lua_task and task_manager (clink/lua/src/async_lua_task.cpp 52-325), the use of a
    callback in async_path_type (clink/lua/src/internal_api.cpp 1200-1258), and on_wait_event (clink/lua/src/lua_input_idle.cpp 172-179).
    The steps of the threads of all tasks and of the main thread are interleaved in any order; a step reads or writes one
    member.  Memory is sequentially consistent. *)
From Verif Require Import Base.

(** where the thread of a task is, proc 318-325 with detach 307-315 and cancel 277-282 in it *)
Inductive wpc := WWork | WComplete | WCancel | WCheck | WDetach | WReset | WEvent | WWake | WEnd.
(** m_thread: no object, one that is joinable, one that is detached *)
Inductive handle := HNone | HJoinable | HDetached.
(** m_callback_ref (the reference has the number of the task), m_run_callback, m_is_complete, m_is_canceled,
    m_run_until_complete, m_thread, m_event; t_had: whether it had a callback at the beginning *)
Record task := mkT { t_key : N; t_ref : bool; t_run : bool; t_complete : bool; t_canceled : bool; t_ruc : bool; t_handle : handle; t_event : bool; t_pc : wpc; t_had : bool }.
(** the loops of on_idle 94-118, end_line 121-147 ([b]: unref), shutdown 196-211 *)
Inductive kind := KIdle | KEnd (b : bool) | KShut.
(** where the main thread is in detach and take_callback *)
Inductive dpc := DCancel | DCheck | DDetach | DReset | DTake.
Inductive mpc :=
| MReady
| MStart (i : nat)
| MVisit (k : kind) (l : list nat)
| MRun (i : nat) (l : list nat)
| MDet (d : dpc) (k : kind) (i : nat) (l : list nat).
Inductive event := Ran (i : nat) | Freed (i : nat).
(** tasks that were made, the map of the manager, the callbacks whose reference is to be released, the event, m_zombie, the
    main thread; what happened (newest first), references dropped by shutdown, and whether a thread was detached twice or through a null pointer *)
Record state := mkS { s_n : nat; s_task : nat -> task; s_map : list nat; s_unref : list nat; s_event : bool; s_zombie : bool; s_main : mpc; s_log : list event; s_dropped : list nat; s_crash : bool }.

Definition upd (f : nat -> task) (i : nat) (t : task) : nat -> task := fun j => if (j =? i)%nat then t else f j.
Definition set_task (s : state) (i : nat) (t : task) : state := mkS (s_n s) (upd (s_task s) i t) (s_map s) (s_unref s) (s_event s) (s_zombie s) (s_main s) (s_log s) (s_dropped s) (s_crash s).
Definition set_main (s : state) (m : mpc) : state := mkS (s_n s) (s_task s) (s_map s) (s_unref s) (s_event s) (s_zombie s) m (s_log s) (s_dropped s) (s_crash s).
Definition set_event (s : state) (b : bool) : state := mkS (s_n s) (s_task s) (s_map s) (s_unref s) b (s_zombie s) (s_main s) (s_log s) (s_dropped s) (s_crash s).
Definition set_crash (s : state) : state := mkS (s_n s) (s_task s) (s_map s) (s_unref s) (s_event s) (s_zombie s) (s_main s) (s_log s) (s_dropped s) true.
Definition set_pc (t : task) (p : wpc) : task := mkT (t_key t) (t_ref t) (t_run t) (t_complete t) (t_canceled t) (t_ruc t) (t_handle t) (t_event t) p (t_had t).
(** cancel, 277-282 *)
Definition cancel (t : task) : task := mkT (t_key t) (t_ref t) false (t_complete t) (if t_complete t then t_canceled t else true) (t_ruc t) (t_handle t) (t_event t) (t_pc t) (t_had t).
Definition set_handle (t : task) (h : handle) : task := mkT (t_key t) (t_ref t) (t_run t) (t_complete t) (t_canceled t) (t_ruc t) h (t_event t) (t_pc t) (t_had t).
Definition set_complete (t : task) : task := mkT (t_key t) (t_ref t) (t_run t) true (t_canceled t) (t_ruc t) (t_handle t) (t_event t) (t_pc t) (t_had t).
Definition signal (t : task) : task := mkT (t_key t) (t_ref t) (t_run t) (t_complete t) (t_canceled t) (t_ruc t) (t_handle t) true (t_pc t) (t_had t).
(** disable_callback, 263-266 *)
Definition disable (t : task) : task := mkT (t_key t) (t_ref t) false (t_complete t) (t_canceled t) (t_ruc t) (t_handle t) (t_event t) (t_pc t) (t_had t).
(** take_callback, 269-274 *)
Definition take (t : task) : task := mkT (t_key t) false (t_run t) (t_complete t) (t_canceled t) (t_ruc t) (t_handle t) (t_event t) (t_pc t) (t_had t).
(** m_thread->detach(): throws if it is not joinable; [true]: that, or there is no object *)
Definition detach_handle (t : task) : task * bool := match t_handle t with HJoinable => (set_handle t HDetached, false) | _ => (t, true) end.

(** one step of the thread of task [i] *)
Definition worker (i : nat) (s : state) : option state :=
  let t := s_task s i in
  let go p t' := Some (set_task s i (set_pc t' p)) in
  match t_pc t with
  | WWork => go WComplete t
  | WComplete => go WCancel (set_complete t)
  | WCancel => go WCheck (cancel t)
  | WCheck => match t_handle t with HNone => go WEvent t | _ => go WDetach t end
  | WDetach => let '(t', bad) := detach_handle t in let s' := set_task s i (set_pc t' WReset) in Some (if bad then set_crash s' else s')
  | WReset => go WEvent (set_handle t HNone)
  | WEvent => go WWake (signal t)
  | WWake => Some (set_event (set_task s i (set_pc t WEnd)) true)
  | WEnd => None
  end.
Definition remove_id (i : nat) (l : list nat) : list nat := filter (fun j => negb (j =? i)%nat) l.
(** one step of the main thread in a loop *)
Definition main (s : state) : option state :=
  match s_main s with
  | MReady => None
  (* start, 300-304: the handle is stored after the thread began *)
  | MStart i => Some (set_main (set_task s i (set_handle (s_task s i) HJoinable)) MReady)
  (* 114-117 *)
  | MVisit KIdle [] => Some (mkS (s_n s) (s_task s) (s_map s) [] (s_event s) (s_zombie s) MReady (rev (map Freed (s_unref s)) ++ s_log s) (s_dropped s) (s_crash s))
  (* 145-146 *)
  | MVisit (KEnd b) [] => Some (set_main (set_event s (b || s_event s)) MReady)
  | MVisit KShut [] => Some (set_main s MReady)
  | MVisit KIdle (i :: l) => Some (set_main s (if t_complete (s_task s i) then MRun i l else MVisit KIdle l))
  | MVisit (KEnd b) (i :: l) => Some (set_main s (if t_ruc (s_task s i) then MVisit (KEnd b) l else MDet DCancel (KEnd b) i l))
  | MVisit KShut (i :: l) => Some (set_main s (MDet DCancel KShut i l))
  (* run_callback, 247-260 *)
  | MRun i l =>
      let t := s_task s i in
      let s' := if t_run t && t_ref t then mkS (s_n s) (s_task s) (s_map s) (s_unref s) (s_event s) (s_zombie s) (s_main s) (Ran i :: s_log s) (s_dropped s) (s_crash s) else s in
      Some (set_main (set_task s' i (disable t)) (MDet DCancel KIdle i l))
  | MDet DCancel k i l => Some (set_main (set_task s i (cancel (s_task s i))) (MDet DCheck k i l))
  | MDet DCheck k i l => Some (set_main s (match t_handle (s_task s i) with HNone => MDet DTake k i l | _ => MDet DDetach k i l end))
  | MDet DDetach k i l => let '(t', bad) := detach_handle (s_task s i) in let s' := set_main (set_task s i t') (MDet DReset k i l) in Some (if bad then set_crash s' else s')
  | MDet DReset k i l => Some (set_main (set_task s i (set_handle (s_task s i) HNone)) (MDet DTake k i l))
  (* take_callback and erase, 106-110, 133-141, 207-210 *)
  | MDet DTake k i l =>
      let had := t_ref (s_task s i) in
      let k' := match k with KEnd b => KEnd (b || had) | _ => k end in
      let unref := match k with KShut => s_unref s | _ => if had then s_unref s ++ [i] else s_unref s end in
      let dropped := match k with KShut => if had then i :: s_dropped s else s_dropped s | _ => s_dropped s end in
      Some (mkS (s_n s) (upd (s_task s) i (take (s_task s i))) (remove_id i (s_map s)) unref (s_event s) (s_zombie s) (MVisit k' l) (s_log s) dropped (s_crash s))
  end.
Inductive label :=
| LWorker (i : nat)                     (* a step of the thread of a task *)
| LMain                                 (* the main thread goes on *)
| LAdd (key : N) (callback ruc : bool)  (* a task is added, 79-91 with set_callback 239-244 *)
| LWake                                 (* the event was signaled: on_idle *)
| LEndLine                              (* the line has ended *)
| LShutdown (final : bool)
| LDisable (i : nat).                   (* async_path_type, 1234-1245: a task that is complete is asked for its result *)
Definition has_key (s : state) (key : N) : bool := existsb (fun i => (t_key (s_task s i) =? key)%N) (s_map s).
Definition new_task (key : N) (callback ruc : bool) : task := mkT key callback callback false false ruc HNone false WWork callback.
Definition step (l : label) (s : state) : option state :=
  match l with
  | LWorker i => if (i <? s_n s)%nat then worker i s else None
  | LMain => main s
  | _ =>
      match s_main s with
      | MReady =>
          match l with
          | LAdd key callback ruc =>
              if s_zombie s || has_key s key then None
              else Some (mkS (S (s_n s)) (upd (s_task s) (s_n s) (new_task key callback ruc)) (s_n s :: s_map s) (s_unref s) (s_event s) (s_zombie s) (MStart (s_n s)) (s_log s) (s_dropped s) (s_crash s))
          | LWake => if s_event s then Some (set_main (set_event s false) (MVisit KIdle (s_map s))) else None
          | LEndLine => Some (set_main s (MVisit (KEnd false) (s_map s)))
          | LShutdown final =>
              if s_zombie s then None
              else Some (mkS (s_n s) (s_task s) (s_map s) (s_unref s) (s_event s) final (MVisit KShut (s_map s)) (s_log s) (s_dropped s) (s_crash s))
          | LDisable i => if (i <? s_n s)%nat && t_complete (s_task s i) then Some (set_task s i (disable (s_task s i))) else None
          | _ => None
          end
      | _ => None
      end
  end.
Fixpoint run (ls : list label) (s : state) : option state := match ls with [] => Some s | l :: ls' => match step l s with Some s' => run ls' s' | None => None end end.
Definition initial : state := mkS 0 (fun _ => new_task 0 false false) [] [] false false MReady [] [] false.
