(** Model of str_impl, str, str_moveable (clink/core/include/core/str.h, clink/core/src/str.cpp), of the str_base versions
    of to_utf8/to_utf16 (clink/core/src/str_convert.cpp 139-151, 223-235) and of the heap blocks they own.

    Units are numbers; memory is a list of units.  Reading or writing outside of a buffer, reading past the end of a
    source, and freeing a block that is not allocated are the outcome None (undefined behaviour), as is exhausted fuel.
    Sources never alias the target.  [max_size] is the largest value of size_type (65535 for uint16, line 49). *)
From Verif Require Import Base.

(** Heap: next block number, allocated blocks. *)
Record heap := mkH { h_next : nat; h_live : list nat }.
Definition h_alloc (h : heap) : nat * heap := (h_next h, mkH (S (h_next h)) (h_next h :: h_live h)).
Definition h_free (h : heap) (b : nat) : option heap :=
  if existsb (Nat.eqb b) (h_live h) then Some (mkH (h_next h) (remove Nat.eq_dec b (h_live h))) else None.

(** str_impl and the derived class's own array ([s_inl]); [s_heap] is Some exactly when m_owns_ptr, and then holds the
    block m_data points to; [s_len] is m_length, where 0 also means "not known" (240-246). *)
Record str := mkS { s_inl : list N; s_heap : option (nat * list N); s_size : nat; s_len : nat; s_grow : bool }.

Definition s_mem (s : str) : list N := match s_heap s with Some (_, m) => m | None => s_inl s end.
Definition set_mem (s : str) (m : list N) : str :=
  match s_heap s with
  | Some (b, _) => mkS (s_inl s) (Some (b, m)) (s_size s) (s_len s) (s_grow s)
  | None => mkS m None (s_size s) (s_len s) (s_grow s)
  end.
Definition set_len (s : str) (n : nat) : str := mkS (s_inl s) (s_heap s) (s_size s) n (s_grow s).

(** strlen/wcslen of memory. *)
Fixpoint strlen (m : list N) : option nat :=
  match m with
  | [] => None
  | u :: m' => if (u =? 0)%N then Some 0 else match strlen m' with Some n => Some (S n) | None => None end
  end.

(** Store units starting at index [i]. *)
Definition store (m : list N) (i : nat) (us : list N) : option (list N) :=
  if Nat.leb (i + length us) (length m) then Some (firstn i m ++ us ++ skipn (i + length us) m) else None.

Section Str.
Variable max_size : nat.
Variable fresh : nat -> nat -> list N.    (* contents of malloc(size) for block number and size *)

(** free_data (194-207) *)
Definition free_data (h : heap) (s : str) : option heap :=
  match s_heap s with Some (b, _) => h_free h b | None => Some h end.

(** reserve (159-190) *)
Definition reserve (h : heap) (s : str) (new_size : nat) (exact : bool) : option (heap * str * bool) :=
  let new_size := if exact then new_size else S new_size in
  if Nat.leb new_size (s_size s) then Some (h, s, true)
  else if negb (s_grow s) then Some (h, s, false)
  else
    let new_size := if exact then new_size else (new_size + 63) / 64 * 64 in
    if Nat.ltb max_size new_size then Some (h, s, false)
    else
      let '(b, h1) := h_alloc h in
      if Nat.ltb (length (s_mem s)) (s_size s) then None
      else match store (fresh b new_size) 0 (firstn (s_size s) (s_mem s)) with
           | None => None
           | Some m => match free_data h1 s with
                       | None => None
                       | Some h2 => Some (h2, mkS (s_inl s) (Some (b, m)) new_size (s_len s) (s_grow s), true)
                       end
           end.

(** length (240-246), with the caching of m_length; the cached value is converted to size_type. *)
Definition slength (s : str) : option (nat * str) :=
  if Nat.eqb (s_len s) 0 then
    match strlen (s_mem s) with
    | Some n => Some (n, set_len s (n mod S max_size))
    | None => None
    end
  else Some (s_len s, s).

(** clear (257-261) *)
Definition clear (s : str) : option str :=
  match store (s_mem s) 0 [0%N] with Some m => Some (set_len (set_mem s m) 0) | None => None end.

(** truncate (272-279) *)
Definition truncate (s : str) (pos : nat) : option str :=
  if Nat.leb (s_size s) pos then Some s
  else match store (s_mem s) pos [0%N] with Some m => Some (set_len (set_mem s m) pos) | None => None end.

(** trim (283-329): the index loops over the memory. *)
Definition is_ws (u : N) : bool := ((u =? 32) || (u =? 9) || (u =? 13) || (u =? 10))%N.
Definition is_blank (u : N) : bool := ((u =? 32) || (u =? 9))%N.
Fixpoint trim_end (m : list N) (e : nat) : option nat :=
  match e with
  | O => Some 0
  | S e' => match nth_error m e' with
            | None => None
            | Some u => if is_ws u then trim_end m e' else Some e
            end
  end.
Fixpoint trim_pos (m : list N) (fuel pos e : nat) : option nat :=
  match fuel with
  | O => None
  | S k => if Nat.ltb pos e then
             match nth_error m pos with
             | None => None
             | Some u => if is_blank u then trim_pos m k (S pos) e else Some pos
             end
           else Some pos
  end.
Definition trim (s : str) : option str :=
  match slength s with
  | None => None
  | Some (n, s) =>
      match trim_end (s_mem s) n with
      | None => None
      | Some e =>
          let s1 := if Nat.ltb e (s_size s) then
                      match store (s_mem s) e [0%N] with Some m => Some (set_len (set_mem s m) e) | None => None end
                    else Some s in
          match s1 with
          | None => None
          | Some s =>
              match trim_pos (s_mem s) (S e) 0 e with
              | None => None
              | Some pos =>
                  if Nat.eqb pos 0 then Some s
                  else
                    let len := s_len s - pos in
                    if Nat.ltb (length (s_mem s)) (pos + S len) then None
                    else match store (s_mem s) 0 (firstn (S len) (skipn pos (s_mem s))) with
                         | Some m => Some (set_len (set_mem s m) len)
                         | None => None
                         end
              end
          end
      end
  end.

(** What concat's copy loop (377-386) reads from the source: at most [n] units, stopping before a NUL. *)
Fixpoint take_c (src : list N) (n : nat) : option (list N) :=
  match n with
  | O => Some []
  | S k => match src with
           | [] => None
           | u :: src' => if (u =? 0)%N then Some []
                          else match take_c src' k with Some t => Some (u :: t) | None => None end
           end
  end.

(** concat (355-389); [n] is None for -1. *)
Definition concat (h : heap) (s : str) (src : list N) (n : option nat) : option (heap * str * bool) :=
  match (match n with Some k => Some k | None => strlen src end) with
  | None => None
  | Some n =>
      match slength s with
      | None => None
      | Some (len, s) =>
          match reserve h s (len + n) false with
          | None => None
          | Some (h, s, _) =>
              (* remaining = m_size - len - 1 can be negative *)
              let truncated := Nat.ltb (s_size s) (len + 1 + n) in
              let remaining := if truncated then s_size s - len - 1 else n in
              if Nat.eqb remaining 0 then Some (h, s, negb truncated)
              else match take_c src remaining with
                   | None => None
                   | Some t =>
                       match store (s_mem s) len (t ++ [0%N]) with
                       | Some m => Some (h, set_len (set_mem s m) (len + length t), negb truncated)
                       | None => None
                       end
                   end
          end
      end
  end.

(** concat_no_truncate (393-413), for n >= 0 *)
Definition concat_nt (h : heap) (s : str) (src : list N) (n : nat) : option (heap * str * bool) :=
  if Nat.eqb n 0 then Some (h, s, true)
  else match slength s with
       | None => None
       | Some (len, s) =>
           match reserve h s (len + n) false with
           | None => None
           | Some (h, s, _) =>
               if Nat.ltb (s_size s) (len + 1 + n) then Some (h, s, false)
               else if Nat.ltb (length src) n then None
               else match store (s_mem s) len (firstn n src ++ [0%N]) with
                    | Some m => Some (h, set_len (set_mem s m) (len + n), true)
                    | None => None
                    end
           end
       end.

(** copy (347-351) *)
Definition copy (h : heap) (s : str) (src : list N) : option (heap * str * bool) :=
  match clear s with Some s => concat h s src None | None => None end.

(** vsnprintf: at most [cap] units including the NUL are stored; the result is the length of the formatted text [f].
    With no capacity nothing is stored. *)
Definition vsnprintf (m : list N) (i cap : nat) (f : list N) : option (list N) :=
  if Nat.eqb cap 0 then Some m else store m i (firstn (cap - 1) f ++ [0%N]).

(** vformat_append for char (452-473); [f] is the formatted text.  format/vformat (417-435) clear first. *)
Definition format_append8 (h : heap) (s : str) (f : list N) : option (heap * str * bool) :=
  match slength s with
  | None => None
  | Some (olen, s) =>
      match vsnprintf (s_mem s) olen (s_size s - olen) f with
      | None => None
      | Some m =>
          let s := set_mem s m in
          let fits h s :=
            match store (s_mem s) (s_size s - 1) [0%N] with
            | Some m => Some (h, set_len (set_mem s m) 0,
                              Nat.eqb (olen + length f) 0 || Nat.ltb (olen + length f) (s_size s))
            | None => None
            end in
          if Nat.leb (s_size s) (olen + length f) then
            match reserve h s (olen + length f) false with
            | None => None
            | Some (h, s, true) =>
                match vsnprintf (s_mem s) olen (s_size s - olen) f with
                | Some m => fits h (set_mem s m)
                | None => None
                end
            | Some (h, s, false) => fits h s
            end
          else fits h s
      end
  end.

(** _vsnwprintf: the NUL is stored only if there is room; None stands for the result -1 of text that does not fit. *)
Definition vsnwprintf (m : list N) (i cap : nat) (f : list N) : option (list N * option nat) :=
  if Nat.ltb (length f) cap then match store m i (f ++ [0%N]) with Some m' => Some (m', Some (length f)) | None => None end
  else match store m i (firstn cap f) with
       | Some m' => Some (m', if Nat.eqb (length f) cap then Some (length f) else None)
       | None => None
       end.

(** vformat_append for wchar_t (475-499): len stays -1 when the text does not fit a buffer that cannot grow, and the
    test of the result is made on orig_len - 1 then (as uint32: -1 is not below m_size). *)
Definition format_append16 (h : heap) (s : str) (f : list N) : option (heap * str * bool) :=
  match slength s with
  | None => None
  | Some (olen, s) =>
      match vsnwprintf (s_mem s) olen (s_size s - 1 - olen) f with
      | None => None
      | Some (m, r) =>
          let s := set_mem s m in
          let fin h s (r : option nat) :=
            match store (s_mem s) (s_size s - 1) [0%N] with
            | Some m => Some (h, set_len (set_mem s m) 0,
                              match r with
                              | Some n => Nat.eqb (n + olen) 0 || Nat.ltb (n + olen) (s_size s)
                              | None => Nat.leb 1 olen && (Nat.eqb (olen - 1) 0 || Nat.ltb (olen - 1) (s_size s))
                              end)
            | None => None
            end in
          match r with
          | Some _ => fin h s r
          | None =>
              if s_grow s then
                match reserve h s (olen + length f) false with
                | None => None
                | Some (h, s, true) =>
                    match vsnwprintf (s_mem s) olen (s_size s - 1 - olen) f with
                    | Some (m, r) => fin h (set_mem s m) r
                    | None => None
                    end
                | Some (h, s, false) => fin h s (Some (length f))
                end
              else fin h s None
          end
      end
  end.

(** operator [] (503-506) *)
Definition index (s : str) (i : nat) : option N :=
  match slength s with
  | None => None
  | Some (n, s) => if Nat.ltb i n then nth_error (s_mem s) i else Some 0%N
  end.

(** to_utf8/to_utf16 into a string: [full] is the full conversion of the input (c22), of which the builder writes a
    prefix and a NUL. *)
Definition append_converted (h : heap) (s : str) (full : list N) : option (heap * str * nat) :=
  match slength s with
  | None => None
  | Some (len, s) =>
      match (if s_grow s then reserve h s (len + length full) false else Some (h, s, false)) with
      | None => None
      | Some (h, s, _) =>
          let s := set_len s 0 in
          let max := s_size s - len in
          if Nat.eqb max 0 then Some (h, s, 0)
          else match store (s_mem s) len (firstn (max - 1) full ++ [0%N]) with
               | Some m => Some (h, set_mem s m, Nat.min (length full) (max - 1))
               | None => None
               end
      end
  end.

(** concat_strip_quotes (753-780) of [src] (a range without NUL). *)
Fixpoint qspan (l : list N) : list N * list N :=
  match l with
  | [] => ([], [])
  | u :: l' => if (u =? 34)%N then ([], l) else let '(a, b) := qspan l' in (u :: a, b)
  end.
Fixpoint qskip (l : list N) : list N :=
  match l with
  | u :: l' => if (u =? 34)%N then qskip l' else l
  | [] => []
  end.
Fixpoint strip_pieces (fuel : nat) (src : list N) : list (list N) :=
  match fuel with
  | O => []
  | S k => match src with
           | [] => []
           | _ => let '(a, b) := qspan src in a :: strip_pieces k (qskip b)
           end
  end.
Fixpoint concat_all (h : heap) (s : str) (ps : list (list N)) : option (heap * str) :=
  match ps with
  | [] => Some (h, s)
  | p :: ps' => match concat h s p (Some (length p)) with Some (h, s, _) => concat_all h s ps' | None => None end
  end.
Definition strip_quotes (h : heap) (s : str) (src : list N) : option (heap * str) :=
  match slength s with
  | None => None
  | Some (len, s) =>
      match reserve h s (len + length src) false with
      | None => None
      | Some (h, s, _) => concat_all h s (strip_pieces (S (length src)) src)
      end
  end.

(** concat_spaces (str.cpp 176-186) *)
Fixpoint concat_spaces (fuel : nat) (h : heap) (s : str) (num : nat) : option (heap * str) :=
  match fuel with
  | O => None
  | S k => if Nat.eqb num 0 then Some (h, s)
           else let chunk := Nat.min num 32 in
                match concat h s (repeat 32%N 32 ++ [0%N]) (Some chunk) with
                | Some (h, s, _) => concat_spaces k h s (num - chunk)
                | None => None
                end
  end.

(** ** Operations on one string *)
Inductive op :=
| OReserve (n : nat) (exact : bool)
| OLength
| OClear
| OTruncate (n : nat)
| OTrim
| OConcat (src : list N) (n : option nat)
| OConcatNt (src : list N) (n : nat)
| OCopy (src : list N)
| OFormat8 (f : list N)
| OFormat16 (f : list N)
| OConverted (full : list N)
| OWrite (us : list N).      (* write through data() (211-215), at most size() units *)

Definition drop {A} (r : option (heap * str * A)) : option (heap * str) :=
  match r with Some (h, s, _) => Some (h, s) | None => None end.
Definition keep (h : heap) (r : option str) : option (heap * str) :=
  match r with Some s => Some (h, s) | None => None end.

Definition do_op (h : heap) (s : str) (o : op) : option (heap * str) :=
  match o with
  | OReserve n e => drop (reserve h s n e)
  | OLength => match slength s with Some (_, s) => Some (h, s) | None => None end
  | OClear => keep h (clear s)
  | OTruncate n => keep h (truncate s n)
  | OTrim => keep h (trim s)
  | OConcat src n => drop (concat h s src n)
  | OConcatNt src n => drop (concat_nt h s src n)
  | OCopy src => drop (copy h s src)
  | OFormat8 f => drop (format_append8 h s f)
  | OFormat16 f => drop (format_append16 h s f)
  | OConverted f => drop (append_converted h s f)
  | OWrite us => match store (s_mem s) 0 us with Some m => Some (h, set_len (set_mem s m) 0) | None => None end
  end.

(** ** Several strings: construction, moves, detaching, destruction *)

(** str<COUNT, GROWABLE>() (631); str_moveable() has COUNT 1 (str.cpp 23-31).  [g]: uninitialised array. *)
Definition new_str (g : list N) (grow : bool) : option str :=
  clear (mkS g None (length g) 0 grow).

(** reset_not_owned (561-569) with the string's own array *)
Definition reset_own (s : str) : str := mkS (s_inl s) None (length (s_inl s)) 0 (s_grow s).

(** attach (132-149) of the block [b] with contents [m] *)
Definition attach (h : heap) (s : str) (b : nat) (m : list N) (size : nat) : option (heap * str) :=
  if s_grow s then
    match free_data h s with
    | Some h' => Some (h', mkS (s_inl s) (Some (b, m)) size 0 (s_grow s))
    | None => None
    end
  else match clear s with
       | None => None
       | Some s => match concat h s m (Some size) with
                   | Some (h, s, _) => match h_free h b with Some h => Some (h, s) | None => None end
                   | None => None
                   end
       end.

(** str::operator = (str&&) (660-680): new heap, target, source. *)
Definition move_str (h : heap) (s r : str) : option (heap * str * str) :=
  match s_heap r with
  | Some (b, m) =>
      match slength r with
      | None => None
      | Some (len, _) =>
          match attach h s b m (s_size r) with
          | None => None
          | Some (h, s) =>
              match truncate (reset_own r) 0, truncate s len with
              | Some r, Some s => Some (h, s, r)
              | _, _ => None
              end
          end
      end
  | None =>
      match free_data h s with
      | None => None
      | Some h => match copy h (reset_own s) (s_mem r) with
                  | Some (h, s, _) => Some (h, s, r)
                  | None => None
                  end
      end
  end.

(** str_moveable::operator = (str.cpp 43-55) with str_impl::operator = (533-549) and reset_empty (74-78). *)
Definition move_moveable (h : heap) (s r : str) : option (heap * str * str) :=
  match s_heap r with
  | Some (b, m) =>
      match free_data h s with
      | None => None
      | Some h => Some (h, mkS (s_inl r) (Some (b, m)) (s_size r) (s_len r) (s_grow r), reset_own r)
      end
  | None => match clear s with Some s => Some (h, s, r) | None => None end
  end.

(** str_moveable::detach (str.cpp 58-64): the block now belongs to the caller. *)
Definition detach (s : str) : option nat * str :=
  (match s_heap s with Some (b, _) => Some b | None => None end, reset_own s).

(** All strings (None: destroyed), blocks detached to callers. *)
Record sworld := mkSW { sw_heap : heap; sw_strs : list (option str); sw_det : list nat }.

Inductive sstep :=
| WNew (g : list N) (grow : bool)
| WOp (i : nat) (o : op)
| WMove (i j : nat)
| WMoveM (i j : nat)
| WDetach (i : nat)
| WFreeDet (b : nat)
| WAttachDet (i : nat) (b : nat) (m : list N)   (* attach a block the caller owns, NUL terminated *)
| WDestroy (i : nat).

Definition get (l : list (option str)) (i : nat) : option str :=
  match nth_error l i with Some (Some s) => Some s | _ => None end.
Fixpoint setn (l : list (option str)) (i : nat) (x : option str) : list (option str) :=
  match l, i with
  | [], _ => []
  | _ :: l', O => x :: l'
  | y :: l', S i' => y :: setn l' i' x
  end.

Definition sstep_do (w : sworld) (st : sstep) : option sworld :=
  let h := sw_heap w in
  let l := sw_strs w in
  let d := sw_det w in
  match st with
  | WNew g grow => match new_str g grow with
                   | Some s => Some (mkSW h (l ++ [Some s]) d)
                   | None => None
                   end
  | WOp i o => match get l i with
               | Some s => match do_op h s o with
                           | Some (h', s') => Some (mkSW h' (setn l i (Some s')) d)
                           | None => None
                           end
               | None => Some w
               end
  | WMove i j => match get l i, get l j with
                 | Some s, Some r =>
                     if Nat.eqb i j then Some w
                     else match move_str h s r with
                          | Some (h', s', r') => Some (mkSW h' (setn (setn l i (Some s')) j (Some r')) d)
                          | None => None
                          end
                 | _, _ => Some w
                 end
  | WMoveM i j => match get l i, get l j with
                  | Some s, Some r =>
                      if Nat.eqb i j then Some w
                      else match move_moveable h s r with
                           | Some (h', s', r') => Some (mkSW h' (setn (setn l i (Some s')) j (Some r')) d)
                           | None => None
                           end
                  | _, _ => Some w
                  end
  | WDetach i => match get l i with
                 | Some s => let '(b, s') := detach s in
                             Some (mkSW h (setn l i (Some s')) (match b with Some b => b :: d | None => d end))
                 | None => Some w
                 end
  | WFreeDet b => if existsb (Nat.eqb b) d
                  then match h_free h b with Some h' => Some (mkSW h' l (remove Nat.eq_dec b d)) | None => None end
                  else Some w
  | WAttachDet i b m =>
      match get l i with
      | Some s => if existsb (Nat.eqb b) d
                  then match attach h s b m (length m) with
                       | Some (h', s') => Some (mkSW h' (setn l i (Some s')) (remove Nat.eq_dec b d))
                       | None => None
                       end
                  else Some w
      | None => Some w
      end
  | WDestroy i => match get l i with
                  | Some s => match free_data h s with
                              | Some h' => Some (mkSW h' (setn l i None) d)
                              | None => None
                              end
                  | None => Some w
                  end
  end.

Fixpoint srun (w : sworld) (tr : list sstep) : option sworld :=
  match tr with
  | [] => Some w
  | st :: tr' => match sstep_do w st with Some w' => srun w' tr' | None => None end
  end.

End Str.
