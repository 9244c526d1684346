(** Model of several sessions sharing one master history file (clink/lib/src/history_db.cpp).

    Granularity: one step is one lock scope on the master file (every function below holds the master lock, or
    touches only the session's own files).  Reaping is also modelled operation by operation, for crashes. *)
From Verif Require Import Base HistFileModel HistDbModel.

Section World.
Variable G : bytes.  (* uninitialised history_read_buffer *)
Variable T : bytes.  (* uninitialised tmp[512] *)

(** ** Reaping one finished session (1236-1287) *)

(** write_lock::append (824-834): one WriteFile per buffer read by file_iter::next(0) (571-595). *)
Fixpoint chunks (fuel : nat) (l : bytes) : list bytes :=
  match fuel with
  | O => []
  | S k => match l with [] => [] | _ => firstn (length G) l :: chunks k (skipn (length G) l) end
  end.

Inductive reap_op :=
| RAppend (c : bytes)      (* WriteFile at the end of master *)
| RMark (o : nat)          (* dest.remove(id) without removals handle *)
| RUnlinkRem               (* os::unlink(removals) (1285) *)
| RUnlinkLines.            (* os::unlink(path) (1286) *)

(** Master file, session file, removals file. *)
Record rstate := mkR { r_m : bytes; r_l : option bytes; r_r : option bytes }.

Definition reap_do (st : rstate) (op : reap_op) : rstate :=
  match op with
  | RAppend c => mkR (r_m st ++ c) (r_l st) (r_r st)
  | RMark o => mkR (wl_mark (r_m st) o) (r_l st) (r_r st)
  | RUnlinkRem => mkR (r_m st) (r_l st) None
  | RUnlinkLines => mkR (r_m st) None (r_r st)
  end.

(** The file operations of one reap, in order: append, apply_removals (438-445) with the tag comparison and the
    offsets of for_each_removal against the master as it is after the append, then the two unlinks.  When both
    files are empty (1259-1260) the first two lists are empty, too. *)
Definition reap_ops (m l : bytes) (r : option bytes) : list reap_op :=
  map RAppend (chunks (length l) l) ++ map RMark (removals_seen T (m ++ l) r) ++ [RUnlinkRem; RUnlinkLines].

(** The part of a reap before a crash after [k] operations; [reap] is an uninterrupted one.  Without a session
    file for_each_session (1412-1431) does not find the session. *)
Definition reap_crash (k : nat) (st : rstate) : rstate :=
  match r_l st with
  | None => st
  | Some l => fold_left reap_do (firstn k (reap_ops (r_m st) l (r_r st))) st
  end.
Definition reap (st : rstate) : rstate :=
  match r_l st with
  | None => st
  | Some l => fold_left reap_do (reap_ops (r_m st) l (r_r st)) st
  end.

(** ** The world *)

(** [p_shown]: what load_internal gave to Readline (add_history, 1510): ids and texts of the last load.  It is empty
    after the process itself clears or compacts: clear empties the index map (1584-1586), and load_rl_history reloads
    after compacting (1549-1553), see c09_own_compaction_refuted for what happens otherwise. *)
Record proc := mkP { p_alive : bool; p_s : sess; p_shown : list (N * bytes) }.
Record world := mkW { w_m : bytes; w_p : list proc }.

Inductive step :=
| SBegin                                        (* initialise, reading the master tag (1311-1316); a master without
                                                   tag gets one (1318-1327): not modelled, masters have a tag *)
| SOpen (i : nat) (shared erase : bool)         (* initialise, opening the session files (1330-1360) *)
| SReuse (i j : nat)                            (* the same, erase_prev, with the process id of the dead session j *)
| SAdd (i : nat) (stamp : bool) (now : N) (line : bytes)    (* last scope of add *)
| SRemM (i : nat) (line : bytes)                (* remove(line), master scope *)
| SRemS (i : nat) (line : bytes)                (* remove(line), session scope *)
| SRemId (i : nat) (id : N)                     (* remove(id) *)
| SLoad (i : nat)                               (* load_internal *)
| SClear (i : nat) (tag : tagsrc)               (* clear *)
| SCompact (i : nat) (tag : tagsrc) (limit : nat) (uniq : bool)
| SEnd (i : nat)                                (* process exit or crash *)
| SReap (j : nat).                              (* any process reaps session j *)

Definition upd (w : world) (i : nat) (m : bytes) (p : proc) : world := mkW m (set_nth (w_p w) i p).

(** New removals files in compact; [newtag] is stored in the compacting session (1723-1726). *)
Definition put_rem (ps : list proc) (rs : list (option bytes)) : list proc :=
  map (fun q => mkP (p_alive (fst q)) (set_rem (p_s (fst q)) (snd q)) (p_shown (fst q))) (combine ps rs).

Definition set_ctag (s : sess) (t : bytes) : sess := mkSess (s_lines s) (s_rem s) t (s_map s) (s_mlen s) (s_mdel s).

(** None is exhaustion of fuel.  Steps of processes that are not alive (for SReap: that are) do nothing. *)
Definition do_step (w : world) (st : step) : option world :=
  let on i f := match nth_error (w_p w) i with
                | Some p => if p_alive p then f p else Some w
                | None => Some w end in
  match st with
  | SBegin => Some (mkW (w_m w) (w_p w ++ [mkP true (mkSess None None (tag_or_empty (extract_ctag max_ctag_size (w_m w))) [] 0 0) []]))
  | SOpen i shared erase =>
      on i (fun p =>
        match s_lines (p_s p) with
        | Some _ => Some w
        | None =>
            if shared then Some w
            else let s := p_s p in
                 let r := if erase then Some (make_removals_file None (s_ctag s)) else None in
                 Some (upd w i (w_m w) (mkP true (mkSess (Some []) r (s_ctag s) (s_map s) (s_mlen s) (s_mdel s)) (p_shown p)))
        end)
  | SReuse i j =>
      on i (fun p =>
        match nth_error (w_p w) j, s_lines (p_s p) with
        | Some q, None =>
            if p_alive q then Some w
            else let s := p_s p in
                 let r := Some (make_removals_file (s_rem (p_s q)) (s_ctag s)) in
                 let l := match s_lines (p_s q) with Some l => l | None => [] end in
                 Some (upd (upd w j (w_m w) (mkP false (set_lines (set_rem (p_s q) None) None) (p_shown q))) i (w_m w)
                         (mkP true (mkSess (Some l) r (s_ctag s) (s_map s) (s_mlen s) (s_mdel s)) (p_shown p)))
        | _, _ => Some w
        end)
  | SAdd i stamp now line =>
      on i (fun p => let '(m', s') := add_line stamp now line (w_m w) (p_s p) in
                     Some (upd w i m' (mkP true s' (p_shown p))))
  | SRemM i line =>
      on i (fun p => match remove_text_master G T line (w_m w) (p_s p) with
                     | Some (m', s', _) => Some (upd w i m' (mkP true s' (p_shown p)))
                     | None => None end)
  | SRemS i line =>
      on i (fun p => match remove_text_session G line (p_s p) with
                     | Some (s', _) => Some (upd w i (w_m w) (mkP true s' (p_shown p)))
                     | None => None end)
  | SRemId i id =>
      on i (fun p => let '(m', s', _) := db_remove id (w_m w) (p_s p) in
                     Some (upd w i m' (mkP true s' (p_shown p))))
  | SLoad i =>
      on i (fun p => match load_internal G T (w_m w) (p_s p) with
                     | Some (s', ts) => Some (upd w i (w_m w) (mkP true s' (combine (s_map s') ts)))
                     | None => None end)
  | SClear i tag =>
      on i (fun p => let '(m', s') := db_clear tag (w_m w) (p_s p) in
                     Some (upd w i m' (mkP true s' [])))
  | SCompact i tag limit uniq =>
      on i (fun p => match compact_rewrite G T tag limit uniq (w_m w) (map (fun q => s_rem (p_s q)) (w_p w)) with
                     | Some (m', rs, newtag) =>
                         let ps := put_rem (w_p w) rs in
                         match nth_error ps i with
                         | Some q => Some (mkW m' (set_nth ps i (mkP true (set_ctag (p_s q) newtag) [])))
                         | None => None
                         end
                     | None => None end)
  | SEnd i => on i (fun p => Some (upd w i (w_m w) (mkP false (p_s p) (p_shown p))))
  | SReap j =>
      match nth_error (w_p w) j with
      | Some q =>
          if p_alive q then Some w
          else let st := reap (mkR (w_m w) (s_lines (p_s q)) (s_rem (p_s q))) in
               Some (upd w j (r_m st) (mkP false (set_lines (set_rem (p_s q) (r_r st)) (r_l st)) (p_shown q)))
      | None => Some w
      end
  end.

Fixpoint run (w : world) (tr : list step) : option world :=
  match tr with
  | [] => Some w
  | st :: tr' => match do_step w st with Some w' => run w' tr' | None => None end
  end.

End World.
