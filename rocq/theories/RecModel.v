(** clink/lib/src/recognizer.cpp: the background recognizer; its editor thread and its worker thread.

    Each critical section of m_mutex is one step (the mutex is the only lock; within a section nothing else is waited
    for).  What is read without the mutex is a step of its own.  Not modelled: failing allocations and CreateEvent; the
    bounded wait of end_line (it only reads, waits at most 1.25 seconds, and then finds and enqueues like the editor does
    at any time); closing of handles. *)
From Verif Require Import Base.
Open Scope N_scope.

Definition str := list N.
Definition str_eq (a b : str) : bool := if list_eq_dec N.eq_dec a b then true else false.
(** cache_entry (82-89): m_file, m_recognition, m_outofdate; the key is the map's, m_age is what [Clear] asks *)
Record centry := mkC { c_file : str; c_rec : N; c_old : bool }.
(** struct entry (91-99) *)
Record entry := mkE { e_key : str; e_word : str; e_cwd : str }.
Definition map_of := list (str * centry).
Fixpoint get (m : map_of) (k : str) : option centry := match m with [] => None | (k', v) :: m => if str_eq k' k then Some v else get m k end.
Definition put (m : map_of) (k : str) (v : centry) : map_of := (k, v) :: filter (fun p => negb (str_eq (fst p) k)) m.

(** where the worker is in proc (624-667): not started; 630; 640; 650-652; 655; 656; 660; returned *)
Inductive wpc := WNone | WWait | WTop | WSearch (e : entry) | WStore (e : entry) (r : str * N) | WNotify | WCheck | WExit.
(** where the editor thread is: in none of these functions; wait_while_busy (295-302) reading m_processing, m_pending,
    waiting; in shutdown at 484 *)
Inductive mpc := MIdle | MProc | MPend | MReady | MJoin.

Section Rec.
(** search_for_executable (548-621): it depends on the files, the environment and so on (the world), and on the entry *)
Variable world : Type.
Variable search : world -> str -> str -> str * N.

Record st := mkS {
  cache : map_of; pending : map_of; queue : option entry;
  thread : bool; event : bool; processing : bool; avail : bool; zombie : bool; ready : bool;
  wp : wpc; mp : mpc; now : world }.
Definition init (w : world) : st := mkS [] [] None false false false false false false WNone MIdle w.

(** 353-356 *)
Definition usable (s : st) : bool := negb (zombie s).
(** 437-457: m_result_available and s_ready_event *)
Definition set_result_available (b : bool) (s : st) : st :=
  mkS (cache s) (pending s) (queue s) (thread s) (event s) (processing s) b (zombie s)
    (if negb b then false else if negb (Bool.eqb b (avail s)) then true else ready s) (wp s) (mp s) (now s).
Definition set_ready (s : st) : st := mkS (cache s) (pending s) (queue s) (thread s) (event s) (processing s) (avail s) (zombie s) true (wp s) (mp s) (now s).
(** 460-472 *)
Definition notify_ready (b : bool) (s : st) : st := set_ready (if b then set_result_available b s else s).
Definition set_wp (p : wpc) (s : st) : st := mkS (cache s) (pending s) (queue s) (thread s) (event s) (processing s) (avail s) (zombie s) (ready s) p (mp s) (now s).
Definition set_mp (p : mpc) (s : st) : st := mkS (cache s) (pending s) (queue s) (thread s) (event s) (processing s) (avail s) (zombie s) (ready s) (wp s) p (now s).
(** 365-421 *)
Definition store (k file : str) (r : N) (is_pending : bool) (s : st) : st :=
  if usable s then
    let v := mkC file r false in
    set_result_available true
      (mkS (if is_pending then cache s else put (cache s) k v) (if is_pending then put (pending s) k v else pending s)
        (queue s) (thread s) (event s) (processing s) (avail s) (zombie s) (ready s) (wp s) (mp s) (now s))
  else s.
(** 165-200; [old]: the keys whose m_age is below the threshold *)
Definition clear (old : str -> bool) (s : st) : st :=
  mkS (map (fun p => (fst p, mkC (c_file (snd p)) (c_rec (snd p)) true)) (filter (fun p => negb (old (fst p))) (cache s))) [] None
    (thread s) (event s) (processing s) (avail s) (zombie s) (ready s) (wp s) (mp s) (now s).
(** 203-241: the return value, cached and file *)
Definition find (s : st) (k : str) : Z * N * str :=
  let miss (cached : N) (file : str) :=
    match (if usable s then get (pending s) k else None) with Some v => ((-1)%Z, c_rec v, c_file v) | None => (0%Z, cached, file) end in
  match (if usable s then get (cache s) k else None) with
  | Some v => if c_old v then miss (c_rec v) (c_file v) else (1%Z, c_rec v, c_file v)
  | None => miss 0 []
  end.
(** 244-290 *)
Definition enqueue (k w c : str) (cached : N) (s : st) : st :=
  if usable s then
    let s := mkS (cache s) (pending s) (Some (mkE k w c)) true (event s) (processing s) (avail s) (zombie s) (ready s)
               (if thread s then wp s else WWait) (mp s) (now s) in
    let s := store k [] cached true s in
    mkS (cache s) (pending s) (queue s) (thread s) true (processing s) (avail s) (zombie s) (ready s) (wp s) (mp s) (now s)
  else s.
(** 305-308 *)
Definition need_refresh (s : st) : bool * st := (avail s, set_result_available false s).
(** 475-481; joins if there was a thread *)
Definition shutdown (old : str -> bool) (s : st) : st :=
  let s := clear old s in
  mkS (cache s) (pending s) (queue s) false (if thread s then true else event s) (processing s) (avail s) true (ready s) (wp s)
    (if thread s then MJoin else mp s) (now s).

(** proc (624-667) from where it is; [None]: waiting, not started or returned *)
Definition worker (s : st) : option st :=
  match wp s with
  | WNone | WExit => None
  | WWait => if event s then Some (set_wp WTop (mkS (cache s) (pending s) (queue s) (thread s) false (processing s) (avail s) (zombie s) (ready s) (wp s) (mp s) (now s))) else None
  | WTop =>
    match (if zombie s then None else queue s) with
    | None =>
      let s := mkS (cache s) [] (queue s) (thread s) (event s) false (avail s) (zombie s) (ready s) (wp s) (mp s) (now s) in
      Some (set_wp WCheck (if zombie s then s else notify_ready false s))
    | Some e => Some (set_wp (WSearch e) (mkS (cache s) (pending s) None (thread s) (event s) true (avail s) (zombie s) (ready s) (wp s) (mp s) (now s)))
    end
  | WSearch e => Some (set_wp (WStore e (search (now s) (e_word e) (e_cwd e))) s)
  | WStore e (f, r) => Some (set_wp WNotify (store (e_key e) f r false s))
  | WNotify => Some (set_wp WTop (notify_ready true s))
  | WCheck => Some (set_wp (if zombie s then WExit else WWait) s)
  end.
(** the editor thread within wait_while_busy or shutdown; [None]: blocked, or in neither *)
Definition editor (s : st) : option st :=
  match mp s with
  | MIdle => None
  | MProc => Some (set_mp (if processing s then MReady else MPend) s)
  | MPend => Some (set_mp (match pending s with [] => MIdle | _ => MReady end) s)
  | MReady => if ready s then Some (set_mp MProc s) else None
  | MJoin => match wp s with WExit => Some (set_mp MIdle s) | _ => None end
  end.

(** what can happen next *)
Inductive act :=
| Find (k : str)
| Enqueue (k w c : str) (cached : N)
| Clear (old : str -> bool)
| Need
| WaitBusy
| Shutdown (old : str -> bool)
| Editor
| Worker
| World (w : world).
Definition step (s : st) (a : act) : option st :=
  match a with
  | Worker => worker s
  | Editor => editor s
  | World w => Some (mkS (cache s) (pending s) (queue s) (thread s) (event s) (processing s) (avail s) (zombie s) (ready s) (wp s) (mp s) w)
  | _ =>
    match mp s with
    | MIdle =>
      match a with
      | Find _ => Some s
      | Enqueue k w c r => Some (enqueue k w c r s)
      | Clear old => Some (clear old s)
      | Need => Some (snd (need_refresh s))
      | WaitBusy => Some (if usable s then set_mp MProc s else s)
      | Shutdown old => Some (shutdown old s)
      | _ => None
      end
    | _ => None
    end
  end.
Fixpoint run (s : st) (t : list act) : option st := match t with [] => Some s | a :: t => match step s a with None => None | Some s => run s t end end.
End Rec.
