(** Model of the file level of clink's history database:
    clink/lib/src/history_db.cpp, classes read_lock, file_iter, line_iter, write_lock.

    A file is its list of bytes.  Windows file handles, locks and OS errors are not modelled at
    this level: every function below runs inside one lock scope (bank_lock, lines 239-308), reads
    and writes are assumed to succeed in full, and file sizes are assumed below 4GB. *)
From Verif Require Import Base.

(** history_db.cpp:646-649 is_line_breaker *)
Definition is_line_breaker (c : byte) : bool :=
  Ascii.eqb c NUL || Ascii.eqb c LF || Ascii.eqb c CR.

(** history_db.cpp:211 c_max_line_id = line_id_impl(uint32(-1)); its 29-bit offset field. *)
Definition c_max_offset : N := 536870911.

(** history_db.cpp:709 too_big *)
Definition too_big (off : nat) : bool := (c_max_offset <=? N.of_nat off)%N.

(** ** file_iter (history_db.cpp:541-607) *)

(** Fields: m_buffer[0..m_buffer_size) (so m_buffer_size = length), m_buffer_offset (an unsigned
    64-bit number that starts as 0 - m_buffer_size and is only used after adding m_buffer_size, so
    an integer here), the handle's file position, and m_remaining. *)
Record file_iter := mkFI {
  fi_buf : bytes;
  fi_boff : Z;
  fi_pos : nat;
  fi_rem : nat }.

(** m_buffer[0] = '\0' (history_db.cpp:576, 606) *)
Definition set0 (b : bytes) : bytes :=
  match b with [] => [] | _ :: b' => NUL :: b' end.

(** Constructor and set_file_offset(0) (history_db.cpp:553-568, 598-607).  [garbage] is the
    uninitialised buffer; its length is the buffer size.  set_file_offset is never called with a
    non-zero offset in the code base. *)
Definition fi_init (f garbage : bytes) : file_iter :=
  mkFI (set0 garbage) (- Z.of_nat (length garbage)) 0 (length f).

(** file_iter::next (history_db.cpp:571-595); [f] is the current content of the file. *)
Definition fi_next (f : bytes) (it : file_iter) (rollback : nat) : nat * file_iter :=
  if Nat.eqb (fi_rem it) 0 then (0, mkFI (set0 (fi_buf it)) (fi_boff it) (fi_pos it) (fi_rem it))
  else
    let size := length (fi_buf it) in
    let rb := Nat.min rollback size in
    let keep := skipn (size - rb) (fi_buf it) in
    let needed := Nat.min (fi_rem it) (size - rb) in
    let data := firstn needed (skipn (fi_pos it) f) in
    let buf' := keep ++ data in
    (length buf',
     mkFI buf' (fi_boff it + Z.of_nat (size - rb)) (fi_pos it + length data)
          (fi_rem it - length data)).

(** ** line_iter (history_db.cpp:612-758) *)

Record line_iter := mkLI {
  li_fi : file_iter;
  li_rem : nat;             (* m_remaining *)
  li_del : nat;             (* m_deleted *)
  li_first : bool;          (* m_first_line *)
  li_eating : bool;         (* m_eating_ctag *)
  li_removals : list nat }. (* m_removals, the unordered_set of deferred removal offsets *)

Definition li_init (f garbage : bytes) (removals : list nat) : line_iter :=
  mkLI (fi_init f garbage) 0 0 true false removals.

Fixpoint count_brk (l : bytes) : nat :=
  match l with
  | c :: l' => if is_line_breaker c then S (count_brk l') else 0
  | [] => 0
  end.

Fixpoint take_run (l : bytes) : bytes :=
  match l with
  | c :: l' => if is_line_breaker c then [] else c :: take_run l'
  | [] => []
  end.

Definition ctag_prefix : bytes := lit "|CTAG_".
Definition time_prefix : bytes := BAR :: TAB :: lit "time=".

Definition mem_nat (n : nat) (l : list nat) : bool := existsb (Nat.eqb n) l.

Inductive li_out :=
| LDone (it : line_iter)                                           (* loop exits, returns 0 *)
| LCont (it : line_iter) (ts : option (nat * bytes))               (* continue *)
| LLine (it : line_iter) (off : nat) (text : bytes) (ts : option (nat * bytes)).

(** One iteration of the while loop of line_iter::next (history_db.cpp:659-748).  [ts] is the pair
    of out parameters timestamp_id and timestamp (both requested, as in rewrite_master_bank and
    the history command; callers that do not request them ignore it).  The strncmp calls at 679 and
    718 compare inside the buffer only: reading behind the buffer end is possible in the code when a
    line fills the whole buffer and is a proper prefix of the searched literal; here it is a
    mismatch. *)
Definition li_step (f : bytes) (it : line_iter) (ts : option (nat * bytes)) : li_out :=
  (* while (m_remaining || provision()) *)
  let '(rem0, fi0) :=
    if Nat.eqb (li_rem it) 0 then fi_next f (li_fi it) 0 else (li_rem it, li_fi it) in
  if Nat.eqb rem0 0
  then LDone (mkLI fi0 0 (li_del it) (li_first it) (li_eating it) (li_removals it))
  else
    let buf := fi_buf fi0 in
    let last := length buf in
    let start0 := last - rem0 in
    let nb := count_brk (skipn start0 buf) in
    let start := start0 + nb in
    let rem1 := rem0 - nb in
    let tail := skipn start buf in
    (* first line / ctag detection, 670-683 *)
    let found := negb (Nat.eqb start last) in
    let is_bar := match tail with c :: _ => Ascii.eqb c BAR | [] => false end in
    let eat := (last - start <? 6) || prefixb ctag_prefix tail in
    let eating := if found && li_first it && is_bar then eat else li_eating it in
    let first1 := if found then false else li_first it in
    let run := take_run tail in
    let end_ := start + length run in
    let eating_m := if Nat.eqb end_ last then eating else false in
    if Nat.eqb end_ last && negb (Nat.eqb start 0) then
      let '(rem', fi') := fi_next f fi0 rem1 in
      LCont (mkLI fi' rem' (li_del it) first1 eating_m (li_removals it)) ts
    else
      let rem2 := rem1 - length run in
      let off := Z.to_nat (fi_boff fi0 + Z.of_nat start) in
      let it' del := mkLI fi0 rem2 del false eating_m (li_removals it) in
      if is_bar && prefixb time_prefix run then
        LCont (it' (li_del it)) (Some (off, skipn 7 run))
      else
        let ts' := if is_bar then None else ts in
        if is_bar || eating || (negb (too_big off) && mem_nat off (li_removals it)) then
          LCont (it' (if eating then li_del it else S (li_del it))) ts'
        else LLine (it' (li_del it)) off run ts'.

Inductive li_result :=
| RFuel                                      (* out of fuel: excluded by the theorems *)
| REnd (it : line_iter)
| RLine (it : line_iter) (off : nat) (text : bytes) (ts : option (nat * bytes)).

Fixpoint li_loop (fuel : nat) (f : bytes) (it : line_iter) (ts : option (nat * bytes)) : li_result :=
  match fuel with
  | O => RFuel
  | S k =>
      match li_step f it ts with
      | LDone it' => REnd it'
      | LCont it' ts' => li_loop k f it' ts'
      | LLine it' off text ts' => RLine it' off text ts'
      end
  end.

(** line_iter::next (history_db.cpp:652-751) *)
Definition li_next (fuel : nat) (f : bytes) (it : line_iter) : li_result := li_loop fuel f it None.

Record entry := mkEntry { e_off : nat; e_text : bytes; e_ts : option (nat * bytes) }.

(** A caller's loop "while (id = iter.next(...))": all entries and the deleted count. *)
Fixpoint li_collect (n fuel : nat) (f : bytes) (it : line_iter) : option (list entry * nat) :=
  match n with
  | O => None
  | S k =>
      match li_next fuel f it with
      | RFuel => None
      | REnd it' => Some ([], li_del it')
      | RLine it' off text ts =>
          match li_collect k fuel f it' with
          | Some (es, d) => Some (mkEntry off text ts :: es, d)
          | None => None
          end
      end
  end.

Definition li_fuel (f : bytes) : nat := 2 * length f + 2.

(** Read a whole bank with the given (uninitialised) buffer and deferred removals. *)
Definition read_bank (garbage : bytes) (removals : list nat) (f : bytes)
  : option (list entry * nat) :=
  li_collect (S (length f)) (li_fuel f) f (li_init f garbage removals).

(** ** Writing (history_db.cpp:763-834) *)

(** SetFilePointer(off, FILE_BEGIN) then WriteFile: overwrites, extends with zeros if needed. *)
Definition write_at (f : bytes) (off : nat) (data : bytes) : bytes :=
  firstn off f ++ repeat NUL (off - length f) ++ data ++ skipn (off + length data) f.

(** write_lock::add (781-792): append line and "\n"; the id is the old end of file. *)
Definition wl_add (f line : bytes) : bytes * nat := (f ++ line ++ [LF], length f).

(** The direct branch of write_lock::remove (814-818). *)
Definition wl_mark (f : bytes) (off : nat) : bytes := write_at f off [BAR].

(** The deferred branch of write_lock::remove (804-812): "%d\n" appended to the removals file. *)
Definition wl_defer (r : bytes) (off : nat) : bytes := r ++ dec (N.of_nat off) ++ [LF].

(** write_lock::append (824-834): the raw bytes of the source. *)
Definition wl_append (f src : bytes) : bytes := f ++ src.

(** ** Concurrency tags (history_db.cpp:176-192, 932-970) *)

(** generate_new_tag: "|CTAG_%u_%u_%u_%u" of time, tick count, process id, counter. *)
Record tagsrc := mkTag { tg_time : N; tg_tick : N; tg_pid : N; tg_seq : N }.

Definition tag_text (t : tagsrc) : bytes :=
  ctag_prefix ++ dec (tg_time t) ++ lit "_" ++ dec (tg_tick t) ++ lit "_"
    ++ dec (tg_pid t) ++ lit "_" ++ dec (tg_seq t).

(** max_ctag_size (176) *)
Definition max_ctag_size : nat := 6 + 10 + 1 + 10 + 1 + 10 + 1 + 10 + 1 + 1.

(** strpbrk(buffer, "\r\n"): index of the first CR or LF before the first NUL. *)
Fixpoint strpbrk_eol (l : bytes) : option nat :=
  match l with
  | [] => None
  | c :: l' => if Ascii.eqb c NUL then None
               else if Ascii.eqb c CR || Ascii.eqb c LF then Some 0
               else option_map S (strpbrk_eol l')
  end.

(** extract_ctag with a buffer of [size] bytes (933-970).  None is the false return, in which case
    the tag object stays empty.  concurrency_tag::set stores into a str<64,false>, i.e. at most 63
    characters. *)
Definition extract_ctag (size : nat) (f : bytes) : option bytes :=
  let n := Nat.min size (length f) in
  if Nat.eqb n 0 then None
  else
    let n' := if size <=? n then size - 1 else n in
    let buf := firstn n' f in
    if prefixb ctag_prefix buf then
      match strpbrk_eol buf with
      | Some e => Some (firstn 63 (firstn e buf))
      | None => None
      end
    else None.

Definition tag_or_empty (t : option bytes) : bytes := match t with Some x => x | None => [] end.

(** ** Removals files (history_db.cpp:457-536) *)

(** The digit loop at 512-520; 64-bit overflow needs 20 digits, which a line shorter than the
    512-byte buffer can have: the multiplication wraps modulo 2^64. *)
Fixpoint parse_off (acc : N) (l : bytes) : N :=
  match l with
  | c :: l' => if is_digit c
               then parse_off ((acc * 10 + (N_of_ascii c - 48)) mod 18446744073709551616)%N l'
               else acc
  | [] => acc
  end.

Definition removal_of_line (text : bytes) : list nat :=
  let o := parse_off 0 text in
  if (c_max_offset <=? o)%N then [] else if (0 <? o)%N then [N.to_nat o] else [].

(** for_each_removal: [master] is the target's lines file, [r] the removals file (None: no handle,
    result 0).  Some l: the offsets passed to the callback in order (result 1); None: tags differ
    (result -1).  [garbage] is the uninitialised 512-byte buffer tmp. *)
Definition for_each_removal (garbage : bytes) (master : bytes) (r : option bytes) : option (list nat) :=
  match r with
  | None => Some []
  | Some rf =>
      if eqb_bytes (tag_or_empty (extract_ctag (length garbage) master))
                   (tag_or_empty (extract_ctag (length garbage) rf))
      then match read_bank garbage [] rf with
           | Some (es, _) => Some (flat_map (fun e => removal_of_line (e_text e)) es)
           | None => None
           end
      else None
  end.

(** make_removals_file (160-171): OPEN_ALWAYS, so existing content behind the tag stays. *)
Definition make_removals_file (old : option bytes) (ctag : bytes) : bytes :=
  let f := match old with Some f => f | None => [] end in
  write_at f 0 (ctag ++ [LF]).

(** ** find / remove by text (history_db.cpp:402-435, 1812-1829) *)

(** strncmp(a, b, n) == 0 for NUL-terminated [a] (NUL implicit at the end of the list) and [b] with at
    least [n] bytes. *)
Fixpoint strncmp_eq (a b : bytes) (n : nat) : bool :=
  match n with
  | O => true
  | S k =>
      match a, b with
      | x :: a', y :: b' => if Ascii.eqb x y then (if Ascii.eqb x NUL then true else strncmp_eq a' b' k)
                            else false
      | [], y :: _ => Ascii.eqb y NUL
      | _, [] => false
      end
  end.

(** The two tests of read_lock::find (411-415): strncmp over read.length() and line[len] == 0. *)
Definition find_matches (line text : bytes) : bool :=
  strncmp_eq line text (length text) && Nat.eqb (length line) (length text).

(** read_lock::find with a callback that always continues and removes the line directly (the
    lambda of history_db::remove(line), lines 1817-1823, when the bank has no removals handle).
    The file is modified while the iterator runs over it. *)
Fixpoint find_remove (n fuel : nat) (line : bytes) (f : bytes) (it : line_iter) (count : nat)
  : option (bytes * nat) :=
  match n with
  | O => None
  | S k =>
      match li_next fuel f it with
      | RFuel => None
      | REnd _ => Some (f, count)
      | RLine it' off text _ =>
          if find_matches line text then find_remove k fuel line (wl_mark f off) it' (S count)
          else find_remove k fuel line f it' count
      end
  end.

(** The same with a removals handle: offsets are appended to the removals file (804-812). *)
Fixpoint find_defer (n fuel : nat) (line : bytes) (f : bytes) (it : line_iter) (r : bytes) (count : nat)
  : option (bytes * nat) :=
  match n with
  | O => None
  | S k =>
      match li_next fuel f it with
      | RFuel => None
      | REnd _ => Some (r, count)
      | RLine it' off text _ =>
          if find_matches line text then find_defer k fuel line f it' (wl_defer r off) (S count)
          else find_defer k fuel line f it' r count
      end
  end.

(** read_lock::find(line): the id of the first match (427-435). *)
Fixpoint find_first (n fuel : nat) (line : bytes) (f : bytes) (it : line_iter) : option (option nat) :=
  match n with
  | O => None
  | S k =>
      match li_next fuel f it with
      | RFuel => None
      | REnd _ => Some None
      | RLine it' off text _ =>
          if find_matches line text then Some (Some off) else find_first k fuel line f it'
      end
  end.

(** ** rewrite_master_bank (history_db.cpp:973-1113) *)

(** A kept entry: old id (position), text, timestamp line id and text. *)
Record keep := mkKeep { k_old : nat; k_text : bytes; k_ts : option (nat * bytes) }.

(** The seen map of the uniq option: text -> index in lines_to_keep (latest assignment first). *)
Fixpoint seen_find (t : bytes) (seen : list (bytes * nat)) : option nat :=
  match seen with
  | [] => None
  | (u, i) :: seen' => if eqb_bytes t u then Some i else seen_find t seen'
  end.

Fixpoint set_nth {A} (l : list A) (i : nat) (x : A) : list A :=
  match l, i with
  | [], _ => []
  | _ :: l', O => x :: l'
  | y :: l', S j => y :: set_nth l' j x
  end.

(** One iteration of the reading loop (1000-1039): lines_to_keep is a vector of possibly null
    pointers.  A timestamp whose text is empty is not kept (1011-1012, 1032).  When the text was seen, the
    moved-from slot becomes null and the reused pair gets the new timestamp and id. *)
Definition keep_line (uniq : bool) (acc : list (option keep) * list (bytes * nat) * nat) (e : entry)
  : list (option keep) * list (bytes * nat) * nat :=
  let '(vec, seen, dups) := acc in
  let ts := match e_ts e with Some (i, t) => (match t with [] => None | _ => Some (i, t) end) | None => None end in
  let k := mkKeep (e_off e) (e_text e) ts in
  if uniq then
    match seen_find (e_text e) seen with
    | Some i => (set_nth vec i None ++ [Some k], (e_text e, length vec) :: seen, S dups)
    | None => (vec ++ [Some k], (e_text e, length vec) :: seen, dups)
    end
  else (vec ++ [Some k], seen, dups).

(** The loop at 1056: "for (start = size; limit && start--;) if (lines[start]) --limit;".
    The result is None when start wraps around to SIZE_MAX. *)
Fixpoint limit_loop (vec : list (option keep)) (start limit : nat) : option nat :=
  match limit with
  | O => Some start
  | S l' =>
      match start with
      | O => None
      | S st' => limit_loop vec st' (match nth st' vec None with Some _ => l' | None => limit end)
      end
  end.

Definition limit_start (vec : list (option keep)) (limit : nat) : option nat :=
  if (0 <? limit) && (limit <? length vec) then limit_loop vec (length vec) limit else Some 0.

(** for (ii = start; ii < size; ++ii); with start = SIZE_MAX the loop body never runs. *)
Definition from_start (vec : list (option keep)) (start : option nat) : list keep :=
  match start with
  | None => []
  | Some s => flat_map (fun o => match o with Some k => [k] | None => [] end) (skipn s vec)
  end.

(** Writing the kept lines (1061-1073), collecting the remap (1100-1112).  The old timestamp id maps to
    the new one only if there is a timestamp. *)
Fixpoint write_kept (f : bytes) (ks : list keep) : bytes * list (nat * nat) :=
  match ks with
  | [] => (f, [])
  | k :: ks' =>
      let '(f1, m1) :=
        match k_ts k with
        | Some (old, t) => let '(g, new) := wl_add f (time_prefix ++ t) in (g, [(old, new)])
        | None => (f, [])
        end in
      let '(f2, new) := wl_add f1 (k_text k) in
      let '(f3, m3) := write_kept f2 ks' in
      (f3, m1 ++ (k_old k, new) :: m3)
  end.

Record rewritten := mkRw {
  rw_file : bytes; rw_remap : list (nat * nat); rw_kept : nat; rw_deleted : nat; rw_dups : nat }.

(** rewrite_master_bank; [removals] are the deferred removals the lock sees (empty in compact and in
    initialise, because m_handle_removals is null there). *)
Definition rewrite_master_bank (garbage : bytes) (removals : list nat) (f : bytes)
    (tag : tagsrc) (limit : nat) (uniq : bool) : option rewritten :=
  match read_bank garbage removals f with
  | None => None
  | Some (es, deleted) =>
      let '(vec, _, dups) := fold_left (keep_line uniq) es ([], [], 0) in
      let f0 := fst (wl_add [] (tag_text tag)) in
      let '(f1, remap) := write_kept f0 (from_start vec (limit_start vec limit)) in
      Some (mkRw f1 remap (length vec) deleted dups)
  end.
