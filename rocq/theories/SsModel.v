(** clink/lua/src/sessionstream.cpp and clink.opensessionstream (clink/lua/src/clink_api.cpp, 1043-1088): named streams in memory.

    Positions are nat: all sums stay below 2^32, since positions and lengths are at most MAX (4 MB).  Bytes are N.  [MX] is
    MAX_SESSION_STREAM_SIZE, [B] is LUAL_BUFFERSIZE (BUFSIZ), [K] is the 4096 of luaL_SessionStream::write.  realloc succeeds; what it adds holds
    anything ([junk]).  An access outside the allocated memory is the outcome [None]. *)
From Verif Require Import Base.
Open Scope nat_scope.

Definition bytes := list N.

Section Ss.
Variables MX B K : nat.
Variable junk : nat -> N.

(** ** session_stream *)
(** m_data (its length is m_capacity), m_size *)
Record stream := mkS { s_data : bytes; s_size : nat }.
Definition s_cap (s : stream) : nat := length (s_data s).
Definition no_data : stream := mkS [] 0.
(** realloc *)
Definition realloc (d : bytes) (n : nat) : bytes := firstn n d ++ map junk (seq (length d) (n - length d)).
(** memcpy(m_data + off, s, ...) *)
Definition poke (off : nat) (s : bytes) (d : bytes) : option bytes := if off + length s <=? length d then Some (firstn off d ++ s ++ skipn (off + length s) d) else None.
(** session_stream::write, 45-89; the new stream, the new offset, the number of bytes written *)
Definition grow (off count : nat) (s : stream) : stream :=
  if s_cap s <? off + (count + 1) then
    let c := Nat.max B (s_cap s * 3 / 2) in
    let c := if c <? off + (count + 1) then (off + (count + 1)) * 3 / 2 else c in
    mkS (realloc (s_data s) (Nat.min c MX)) (s_size s)
  else s.
Definition s_write (off : nat) (buf : bytes) (s : stream) : option (stream * nat * nat) :=
  let s := grow off (length buf) s in
  let usable := s_cap s - 1 in
  if usable <=? off then Some (s, off, 0)
  else
    let n := Nat.min (length buf) (usable - off) in
    match poke off (firstn n buf) (s_data s) with
    | None => None
    | Some d =>
      let off := off + n in
      if s_size s <? off then match poke off [0%N] d with Some d => Some (mkS d off, off, n) | None => None end
      else Some (mkS d (s_size s), off, n)
    end.
(** the bytes from offset to m_size; read and gets look at no others *)
Definition avail (off : nat) (s : stream) : bytes := skipn off (firstn (s_size s) (s_data s)).
(** session_stream::read, 92-126: what is put in the buffer, and by how much offset grows *)
Fixpoint read_text (max : nat) (l : bytes) : bytes * nat :=
  match max, l with
  | S max', c :: l' =>
      match l' with
      | d :: l'' => if ((c =? 13) && (d =? 10))%N then let '(o, n) := read_text max' l'' in (10%N :: o, S (S n)) else let '(o, n) := read_text max' l' in (c :: o, S n)
      | [] => ([c], 1)
      end
  | _, _ => ([], 0)
  end.
Definition s_read (text : bool) (max off : nat) (s : stream) : bytes * nat :=
  if text then read_text max (avail off s) else (firstn max (avail off s), length (firstn max (avail off s))).
(** session_stream::gets, 129-153; [k] is max - 1 - num, [buf] what is in the buffer *)
Fixpoint gets_loop (text : bool) (k : nat) (l buf : bytes) : bytes * nat :=
  match k, l with
  | S k', c :: l' =>
      if (c =? 10)%N then (if text && (1 <=? length buf) && (last buf 0 =? 13)%N then (removelast buf ++ [10%N], 1) else (buf ++ [10%N], 1))
      else let '(o, n) := gets_loop text k' l' (buf ++ [c]) in (o, S n)
  | _, _ => (buf, 0)
  end.
Definition s_gets (text : bool) (max off : nat) (s : stream) : bytes * nat := if max =? 0 then ([], 0) else gets_loop text (max - 1) (avail off s) [].
(** session_stream::truncate, 170-175, and clear, 178-184 *)
Definition s_truncate (off : nat) (s : stream) : stream := if off <? s_size s then mkS (s_data s) off else s.
Definition s_clear (s : stream) : stream := no_data.

(** ** luaL_SessionStream *)
Record flags := mkF { f_create : bool; f_write : bool; f_read : bool; f_append : bool; f_only : bool; f_binary : bool }.
(** m_stream (an index; none: closed), m_flags, m_offset *)
Record handle := mkH { h_stream : option nat; h_flags : flags; h_off : nat }.
Definition text_mode (h : handle) : bool := negb (f_binary (h_flags h)).
(** luaL_SessionStream::write, 335-358, in text mode: [pend] is buffer up to p *)
Fixpoint write_text (pend rest : bytes) (off total : nat) (s : stream) : option (stream * nat * nat) :=
  match rest with
  | [] => match pend with [] => Some (s, off, total) | _ => match s_write off pend s with Some (s, off, n) => Some (s, off, total + n) | None => None end end
  | c :: rest' =>
      if (c =? 10)%N || (length pend =? K) then
        match (match pend with [] => Some (s, off, 0) | _ => s_write off pend s end) with
        | None => None
        | Some (s, off, n) =>
          if (c =? 10)%N then match s_write off [13%N] s with None => None | Some (s, off, _) => write_text [c] rest' off (total + n) s end
          else write_text [c] rest' off (total + n) s
        end
      else write_text (pend ++ [c]) rest' off total s
  end.
Definition h_write (text : bool) (off : nat) (buf : bytes) (s : stream) : option (stream * nat * nat) := if text then write_text [] buf off 0 s else s_write off buf s.

(** luaL_SessionStream::write(lua_State), 649-683: the strings one after the other; the flag: everything was written *)
Fixpoint write_all (text append : bool) (strs : list bytes) (off : nat) (s : stream) : option (stream * nat * bool) :=
  match strs with
  | [] => Some (s, off, true)
  | b :: strs' =>
      let off := if append then s_size s else off in
      match h_write text off (firstn MX b) s with
      | None => None
      | Some (s, off, n) => if n =? length b then write_all text append strs' off s else Some (s, off, false)
      end
  end.
(** strlen *)
Fixpoint upto_nul (l : bytes) : bytes := match l with c :: l' => if (c =? 0)%N then [] else c :: upto_nul l' | [] => [] end.
(** ss_read_line, 489-515; the string, whether something was read, the new offset *)
Fixpoint read_line (fuel : nat) (text chop : bool) (off : nat) (s : stream) (acc : bytes) : bytes * bool * nat :=
  match fuel with
  | O => (acc, false, off)
  | S fuel' =>
      let '(p, n) := s_gets text B off s in
      let off := off + n in
      if length p =? 0 then (acc, 0 <? length acc, off)
      else
        let p := upto_nul p in
        if (length p =? 0) || negb (last p 0 =? 10)%N then read_line fuel' text chop off s (acc ++ p)
        else (acc ++ (if chop then removelast p else p), true, off)
  end.
(** ss_read_all, 516-531 *)
Fixpoint read_all (fuel : nat) (text : bool) (rlen off : nat) (s : stream) (acc : bytes) : bytes * nat :=
  match fuel with
  | O => (acc, off)
  | S fuel' =>
      let '(p, n) := s_read text rlen off s in
      if length p <? rlen then (acc ++ p, off + n) else read_all fuel' text (Nat.min (rlen * 2) MX) (off + n) s (acc ++ p)
  end.
(** ss_read, 544-605: one format.  *n (sscanf) is not modelled.  None: nil *)
Inductive fmt := Chars (n : nat) | Line | LineL | All.
Definition read_one (f : fmt) (h : handle) (s : stream) : option bytes * nat :=
  let text := text_mode h in
  let fuel := S (s_size s) in
  match f with
  | Chars O => (if s_size s <=? h_off h then Some [] else None, h_off h)
  | Chars n => let '(p, k) := s_read text (Nat.min n MX) (h_off h) s in (if 0 <? length p then Some p else None, h_off h + k)
  | Line => let '(p, ok, off) := read_line fuel text true (h_off h) s [] in (if ok then Some p else None, off)
  | LineL => let '(p, ok, off) := read_line fuel text false (h_off h) s [] in (if ok then Some p else None, off)
  | All => let '(p, off) := read_all fuel text B (h_off h) s [] in (Some p, off)
  end.
Definition at_off (off : nat) (h : handle) : handle := mkH (h_stream h) (h_flags h) off.
Fixpoint read_fmts (fs : list fmt) (h : handle) (s : stream) : list (option bytes) * nat :=
  match fs with
  | [] => ([], h_off h)
  | f :: fs' =>
      match read_one f h s with
      | (Some p, off) => let '(r, off) := read_fmts fs' (at_off off h) s in (Some p :: r, off)
      | (None, off) => ([None], off)
      end
  end.

(** ** The streams and handles of a session *)
Record world := mkW { w_streams : list (bytes * stream); w_handles : list handle }.
Fixpoint set_nth {A} (i : nat) (x : A) (l : list A) : list A := match i, l with O, _ :: l' => x :: l' | S i', y :: l' => y :: set_nth i' x l' | _, [] => [] end.
Fixpoint beq (a b : bytes) : bool := match a, b with [], [] => true | x :: a', y :: b' => (x =? y)%N && beq a' b' | _, _ => false end.
Fixpoint find_stream (n : nat) (name : bytes) (l : list (bytes * stream)) : option nat := match l with [] => None | (x, _) :: l' => if beq x name then Some n else find_stream (S n) name l' end.

(** open_session_stream, clink_api.cpp 1043-1085; the mode.  None: invalid mode *)
Definition eat (c : N) (m : bytes) : bool * bytes := match m with x :: m' => if (x =? c)%N then (true, m') else (false, m) | [] => (false, m) end.
Definition parse_mode (m : bytes) : option (flags * bool) :=
  match m with
  | [] => None
  | c :: m =>
      if negb ((c =? 114) || (c =? 119) || (c =? 97))%N then None
      else
        let wr := (c =? 119)%N in
        let ap := (c =? 97)%N in
        let '(plus, m) := eat 43 m in
        let '(only, m) := if wr then eat 120 m else (false, m) in
        let '(bin, m) := eat 98 m in
        match m with
        | [] => Some (mkF (wr || ap) (wr || ap || plus) (negb (wr || ap) || plus) ap only bin, wr)
        | _ => None
        end
  end.
Inductive whence := Set_ | Cur | End_.
Inductive op := Open (name mode : bytes) | Write (h : nat) (strs : list bytes) | Read (h : nat) (fs : list fmt) | Seek (h : nat) (w : whence) (off : Z) | Trunc (h : nat) | Close (h : nat).
(** what Lua sees; [Failed]: nil and a message; [Error]: an error is raised *)
Inductive res := Opened (h : nat) | Done | Failed | Error | Got (l : list (option bytes)) | Pos (n : nat).
(** make_new, 202-245: mode and clear from open_session_stream.  An empty name opens nothing *)
Definition do_open (name mode : bytes) (w : world) : world * res :=
  match name with
  | [] => (w, Failed)
  | _ =>
    match parse_mode mode with
    | None => (w, Error)
    | Some (f, clear) =>
        match find_stream 0 name (w_streams w) with
        | Some i =>
            if f_only f then (w, Failed)
            else
              let streams := if clear then match nth_error (w_streams w) i with Some (n, s) => set_nth i (n, s_clear s) (w_streams w) | None => w_streams w end else w_streams w in
              (mkW streams (w_handles w ++ [mkH (Some i) f 0]), Opened (length (w_handles w)))
        | None =>
            if f_create f then (mkW (w_streams w ++ [(name, no_data)]) (w_handles w ++ [mkH (Some (length (w_streams w))) f 0]), Opened (length (w_handles w)))
            else (w, Failed)
        end
    end
  end.
(** tostream, 189-199: a closed handle is an error *)
Definition with_handle (hi : nat) (w : world) (f : handle -> nat -> bytes -> stream -> option (stream * handle * res)) : option (world * res) :=
  match nth_error (w_handles w) hi with
  | Some h =>
      match h_stream h with
      | Some si =>
          match nth_error (w_streams w) si with
          | Some (name, s) => match f h si name s with Some (s, h, r) => Some (mkW (set_nth si (name, s) (w_streams w)) (set_nth hi h (w_handles w)), r) | None => None end
          | None => Some (w, Error)
          end
      | None => Some (w, Error)
      end
  | None => Some (w, Error)
  end.
(** seek, 613-637: a negative position is a large unsigned number *)
Definition seek_to (wh : whence) (z : Z) (h : handle) (s : stream) : nat :=
  let base := match wh with Set_ => 0 | Cur => h_off h | End_ => s_size s end in
  let p := (Z.of_nat base + z)%Z in
  if (p <? 0)%Z then MX else if (Z.of_nat MX <? p)%Z then MX else Z.to_nat p.
Definition step (o : op) (w : world) : option (world * res) :=
  match o with
  | Open name mode => Some (do_open name mode w)
  | Write hi strs => with_handle hi w (fun h _ _ s =>
      if f_write (h_flags h) then match write_all (text_mode h) (f_append (h_flags h)) strs (h_off h) s with Some (s, off, ok) => Some (s, at_off off h, if ok then Done else Failed) | None => None end
      else Some (s, h, Failed))
  | Read hi fs => with_handle hi w (fun h _ _ s =>
      if f_read (h_flags h) then let '(r, off) := read_fmts (match fs with [] => [Line] | _ => fs end) h s in Some (s, at_off off h, Got r) else Some (s, h, Failed))
  | Seek hi wh z => with_handle hi w (fun h _ _ s => Some (s, at_off (seek_to wh z h s) h, Pos (seek_to wh z h s)))
  | Trunc hi => with_handle hi w (fun h _ _ s => Some (if f_write (h_flags h) then s_truncate (h_off h) s else s, h, Done))
  | Close hi => with_handle hi w (fun h _ _ s => Some (s, mkH None (h_flags h) (h_off h), Done))
  end.
Fixpoint run (ops : list op) (w : world) : option (world * list res) :=
  match ops with
  | [] => Some (w, [])
  | o :: ops' => match step o w with
                 | Some (w, r) => match run ops' w with Some (w, rs) => Some (w, r :: rs) | None => None end
                 | None => None
                 end
  end.
Definition start : world := mkW [] [].
End Ss.
