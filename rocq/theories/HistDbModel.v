(** Model of class history_db (clink/lib/src/history_db.cpp) for one session: the master file plus the
    session's own files and in-memory fields.

    Simplifications: m_use_master_bank is true (history.save on); the Readline history list that
    add_history maintains is the list of texts returned by [load]; time(0) is an argument; a file that
    cannot be opened is not modelled.  Each function body is a sequence of lock scopes; HistWorld*.v
    interleaves at that granularity. *)
From Verif Require Import Base HistFileModel.

(** ** line ids (history_db.cpp:196-211): offset:29, bank_index:2, active:1. *)
Definition two29 : N := 536870912.
Definition two31 : N := 2147483648.
Definition pack (bank off : N) : N := (off mod two29 + (bank mod 4) * two29 + two31)%N.
Definition id_offset (id : N) : N := (id mod two29)%N.
Definition id_bank (id : N) : N := ((id / two29) mod 4)%N.
Definition bank_master : N := 0.
Definition bank_session : N := 1.

(** line_iter::next returns c_max_line_id for offsets that do not fit (709-713), and write_lock::add the
    same (788-790). *)
Definition line_id (bank : N) (off : nat) : N :=
  pack bank (if too_big off then c_max_offset else N.of_nat off).

(** ** Session state *)

Record sess := mkSess {
  s_lines : option bytes;   (* session bank; None when history.shared *)
  s_rem : option bytes;     (* removals file of the session; None: no handle *)
  s_ctag : bytes;           (* m_master_ctag *)
  s_map : list N;           (* m_index_map *)
  s_mlen : nat;             (* m_master_len *)
  s_mdel : nat }.           (* m_master_deleted_count *)

Definition set_lines (s : sess) (l : option bytes) : sess :=
  mkSess l (s_rem s) (s_ctag s) (s_map s) (s_mlen s) (s_mdel s).
Definition set_rem (s : sess) (r : option bytes) : sess :=
  mkSess (s_lines s) r (s_ctag s) (s_map s) (s_mlen s) (s_mdel s).

Record config := mkCfg {
  c_dupe : nat;             (* history.dupe_mode: 0 add, 1 ignore, 2 erase_prev *)
  c_ignore_space : bool;    (* history.ignore_space *)
  c_stamp : bool }.         (* history.time_stamp > 0 *)

Section Db.
(** Uninitialised contents of the heap buffer (history_read_buffer) and of tmp[512]. *)
Variable G : bytes.
Variable T : bytes.

(** line_iter's constructor collects the removals seen by the lock (624-631). *)
Definition removals_seen (m : bytes) (r : option bytes) : list nat :=
  match for_each_removal T m r with Some l => l | None => [] end.

(** Iterating the master bank through get_bank(bank_master) (1372-1387): the session's removals apply. *)
Definition read_master (m : bytes) (s : sess) : option (list entry * nat) :=
  read_bank G (removals_seen m (s_rem s)) m.

(** ** find (1941-1953) *)
Definition db_find (line : bytes) (m : bytes) (s : sess) : option (option N) :=
  match find_first (S (length m)) (li_fuel m) line m (li_init m G (removals_seen m (s_rem s))) with
  | None => None
  | Some (Some o) => Some (Some (line_id bank_master o))
  | Some None =>
      match s_lines s with
      | None => Some None
      | Some l =>
          match find_first (S (length l)) (li_fuel l) line l (li_init l G []) with
          | None => None
          | Some (Some o) => Some (Some (line_id bank_session o))
          | Some None => Some None
          end
      end
  end.

(** ** remove(line) (1812-1829): master first (deferred if there is a removals handle), then session.
    Offsets that do not fit are refused by write_lock::remove; the theorems exclude such sizes. *)
Definition remove_text_master (line m : bytes) (s : sess) : option (bytes * sess * nat) :=
  let it := li_init m G (removals_seen m (s_rem s)) in
  match s_rem s with
  | Some r =>
      match find_defer (S (length m)) (li_fuel m) line m it r 0 with
      | Some (r', n) => Some (m, set_rem s (Some r'), n)
      | None => None
      end
  | None =>
      match find_remove (S (length m)) (li_fuel m) line m it 0 with
      | Some (m', n) => Some (m', s, n)
      | None => None
      end
  end.

Definition remove_text_session (line : bytes) (s : sess) : option (sess * nat) :=
  match s_lines s with
  | None => Some (s, 0)
  | Some l =>
      match find_remove (S (length l)) (li_fuel l) line l (li_init l G []) 0 with
      | Some (l', n) => Some (set_lines s (Some l'), n)
      | None => None
      end
  end.

Definition db_remove_text (line m : bytes) (s : sess) : option (bytes * sess * nat) :=
  match remove_text_master line m s with
  | None => None
  | Some (m1, s1, n1) =>
      match remove_text_session line s1 with
      | None => None
      | Some (s2, n2) => Some (m1, s2, n1 + n2)
      end
  end.

(** ** add (1771-1809) *)

(** "|\ttime=%u" (1803): %u prints the low 32 bits. *)
Definition stamp_line (now : N) : bytes := time_prefix ++ dec (now mod 4294967296)%N.

(** The last lock scope of add (1792-1808) on the file of the active bank. *)
Definition add_to_file (stamp : bool) (now : N) (line f : bytes) : bytes :=
  let f1 := if stamp then fst (wl_add f (stamp_line now)) else f in
  fst (wl_add f1 line).

Definition add_line (stamp : bool) (now : N) (line m : bytes) (s : sess) : bytes * sess :=
  match s_lines s with
  | None => (add_to_file stamp now line m, s)               (* get_active_bank (1366-1369) *)
  | Some l => (m, set_lines s (Some (add_to_file stamp now line l)))
  end.

Definition ignored (cfg : config) (line : bytes) : bool :=
  match line with
  | [] => true
  | c :: _ => c_ignore_space cfg && (Ascii.eqb c SPC || Ascii.eqb c TAB)
  end.

Definition db_add (cfg : config) (now : N) (line m : bytes) (s : sess) : option (bytes * sess * bool) :=
  if ignored cfg line then Some (m, s, false)
  else
    match c_dupe cfg with
    | 1 =>
        match db_find line m s with
        | None => None
        | Some (Some _) => Some (m, s, true)
        | Some None => let '(m', s') := add_line (c_stamp cfg) now line m s in Some (m', s', true)
        end
    | 2 =>
        match db_remove_text line m s with
        | None => None
        | Some (m1, s1, _) => let '(m', s') := add_line (c_stamp cfg) now line m1 s1 in Some (m', s', true)
        end
    | _ => let '(m', s') := add_line (c_stamp cfg) now line m s in Some (m', s', true)
    end.

(** ** remove(id) = remove_internal(id, guard_ctag = true) (1832-1892) *)

(** std::lower_bound on [lo, hi) of the map, as the index of the first element not less than id.  The map is
    sorted inside each bank, so the position std::lower_bound finds by bisection is this one. *)
Fixpoint lower_bound (l : list N) (id : N) : nat :=
  match l with
  | x :: l' => if (x <? id)%N then S (lower_bound l' id) else 0
  | [] => 0
  end.

Definition remove_at {A} (i : nat) (l : list A) : list A := firstn i l ++ skipn (S i) l.

(** The tag check (1850-1863), with the 51-byte buffer of extract_ctag. *)
Definition tag_ok (m : bytes) (ctag : bytes) : bool :=
  match extract_ctag max_ctag_size m with
  | None => false
  | Some t => eqb_bytes t ctag
  end.

(** Index map update (1868-1889). *)
Definition map_remove (id : N) (s : sess) : sess :=
  if N.eqb (id_bank id) bank_master then
    let i := lower_bound (firstn (s_mlen s) (s_map s)) id in
    match nth_error (firstn (s_mlen s) (s_map s)) i with
    | Some x => if N.eqb x id
                then mkSess (s_lines s) (s_rem s) (s_ctag s) (remove_at i (s_map s)) (s_mlen s - 1) (S (s_mdel s))
                else s
    | None => s
    end
  else
    let i := s_mlen s + lower_bound (skipn (s_mlen s) (s_map s)) id in
    match nth_error (s_map s) i with
    | Some x => if N.eqb x id
                then mkSess (s_lines s) (s_rem s) (s_ctag s) (remove_at i (s_map s)) (s_mlen s) (s_mdel s)
                else s
    | None => s
    end.

(** write_lock::remove(id) (795-821) on the bank of the id. *)
Definition lock_remove (id : N) (m : bytes) (s : sess) : option (bytes * sess) :=
  if N.eqb (id_offset id) c_max_offset then None
  else
    let off := N.to_nat (id_offset id) in
    if N.eqb (id_bank id) bank_master then
      match s_rem s with
      | Some r => Some (m, set_rem s (Some (wl_defer r off)))
      | None => Some (wl_mark m off, s)
      end
    else if N.eqb (id_bank id) bank_session then
      match s_lines s with
      | Some l => Some (m, set_lines s (Some (wl_mark l off)))
      | None => None
      end
    else None.

Definition db_remove (id : N) (m : bytes) (s : sess) : bytes * sess * bool :=
  if N.eqb id 0 then (m, s, false)
  else if N.eqb (id_bank id) bank_master && negb (tag_ok m (s_ctag s)) then (m, s, false)
  else
    match lock_remove id m s with
    | None => (m, s, false)
    | Some (m', s') => (m', map_remove id s', true)
    end.

(** remove(rl_history_index, line) (1926-1938). *)
Definition db_remove_index (i : nat) (m : bytes) (s : sess) : bytes * sess * bool :=
  match nth_error (s_map s) i with
  | None => (m, s, true)
  | Some id => db_remove id m s
  end.

(** ** load_internal (1473-1536): tag, index map, counts; returns the displayed entries.  The buffer is one
    byte shorter (1497). *)
Definition load_buffer : bytes := firstn (length G - 1) G.

Definition load_internal (m : bytes) (s : sess) : option (sess * list bytes) :=
  match read_bank load_buffer (removals_seen m (s_rem s)) m with
  | None => None
  | Some (es, del) =>
      match (match s_lines s with None => Some ([], 0) | Some l => read_bank load_buffer [] l end) with
      | None => None
      | Some (es2, _) =>
          let ctag := tag_or_empty (extract_ctag max_ctag_size m) in
          let ids := map (fun e => line_id bank_master (e_off e)) es
                     ++ map (fun e => line_id bank_session (e_off e)) es2 in
          Some (mkSess (s_lines s) (s_rem s) ctag ids (length es) del,
                map e_text es ++ map e_text es2)
      end
  end.

(** ** The pruning loop of compact (1612-1641).  The break conditions end the loop. *)
Fixpoint prune (fuel limit : nat) (m : bytes) (s : sess) : bytes * sess :=
  match fuel with
  | O => (m, s)
  | S k =>
      if limit <? s_mlen s then
        match s_map s with
        | [] => (m, s)              (* m_index_map[0] of an empty vector: excluded by the theorems *)
        | id :: _ =>
            if N.eqb (id_bank id) bank_master then
              let '(m', s', ok) := db_remove id m s in
              if ok then prune k limit m' s' else (m, s)
            else (m, s)
        end
      else (m, s)
  end.

(** ** The rewriting part of compact (1657-1768) *)

(** A removals file as seen by another process: session file (exists, size) and removals file. *)
Definition translate (remap : list (nat * nat)) (offs : list nat) : bytes :=
  flat_map (fun o => match find (fun p => Nat.eqb (fst p) o) remap with
                     | Some (_, n) => dec (N.of_nat n) ++ [LF]
                     | None => [] end) offs.

(** make_removals_file, SetEndOfFile, and the translated ids (1729-1756). *)
Definition rewrite_removals (newtag : bytes) (remap : list (nat * nat)) (offs : list nat) : bytes :=
  newtag ++ [LF] ++ translate remap offs.

(** for_each_session's collecting step (1669-1716) and the later rewrite, for one removals file. *)
Definition compact_removals (m : bytes) (newtag : bytes) (remap : list (nat * nat)) (r : option bytes)
  : option bytes :=
  match r with
  | None => None
  | Some rf =>
      match for_each_removal T m (Some rf) with
      | Some offs => Some (rewrite_removals newtag remap offs)
      | None => Some rf
      end
  end.

(** compact after the threshold test; [rems] are all sessions' removals files, this one's included. *)
Definition compact_rewrite (tag : tagsrc) (limit : nat) (uniq : bool) (m : bytes) (rems : list (option bytes))
  : option (bytes * list (option bytes) * bytes) :=
  match rewrite_master_bank G [] m tag limit uniq with
  | None => None
  | Some rw =>
      let m' := rw_file rw in
      let newtag := tag_or_empty (extract_ctag max_ctag_size m') in
      Some (m', map (compact_removals m newtag (rw_remap rw)) rems, newtag)
  end.

(** ** clear (1564-1588) *)
Definition db_clear (tag : tagsrc) (m : bytes) (s : sess) : bytes * sess :=
  (* lock.clear() of the master bank truncates the session's removals file too (769-778) *)
  (fst (wl_add [] (tag_text tag)),
   mkSess (option_map (fun _ => []) (s_lines s)) (option_map (fun _ => []) (s_rem s)) (tag_text tag) [] 0 0).

End Db.
