(** Model of packed matches and their lookaside tables (clink/lib/src/matches_lookaside.cpp).  A packed match is the block of
    bytes behind its pointer; reading behind the end of the block is [None]. *)
From Verif Require Import Base.

(** What is known about a match; None: nullptr. *)
Record record := mkrec { r_match : option bytes; r_type : N; r_display : option bytes; r_desc : option bytes; r_append : byte; r_flags : byte }.

(** append_string_into_buffer (20-32), without allow_tabs *)
Definition clean (c : byte) : byte := if Ascii.eqb c CR || Ascii.eqb c LF || Ascii.eqb c TAB then SPC else c.
Definition text_or_empty (s : option bytes) : bytes := match s with Some t => t | None => [] end.
Definition append_string (s : option bytes) : bytes := map clean (text_or_empty s) ++ [NUL].
(** calc_packed_size (35-48); [magic] is ":LA:" in debug builds, else empty. *)
Definition calc_packed_size (magic : bytes) (r : record) : nat :=
  3 + 2 + 1 + 1 + length (text_or_empty (r_match r)) + length magic + length (text_or_empty (r_display r)) + length (text_or_empty (r_desc r)).
(** LOBYTE and HIBYTE of the type (72-73) *)
Definition lo_byte (t : N) : byte := ascii_of_N (t mod 256).
Definition hi_byte (t : N) : byte := ascii_of_N (t / 256 mod 256).
(** pack_match (51-94): the bytes written; None: false is returned. *)
Definition pack_match (magic : bytes) (r : record) : option bytes :=
  match r_match r with
  | Some [] => None
  | m =>
      match r_display r with
      | Some [] => None
      | d => Some (append_string m ++ [lo_byte (r_type r); hi_byte (r_type r); r_append r; r_flags r] ++ magic ++
                   append_string d ++ append_string (r_desc r))
      end
  end.

(** The C string at an offset of a block. *)
Fixpoint cstr (l : bytes) : option bytes :=
  match l with [] => None | c :: r => if Ascii.eqb c NUL then Some [] else option_map (cons c) (cstr r) end.
Definition at_offset (block : bytes) (off : N) : option bytes := cstr (skipn (N.to_nat off) block).

(** match_extra (matches_lookaside.h 9-16) *)
Record extra := mkx { x_display : N; x_desc : N; x_type : N; x_append : byte; x_flags : byte }.
Definition u16 (n : N) : N := (n mod 65536)%N.
(** matches_lookaside::add (160-186); bytes of the type are combined by "or" of disjoint bits. *)
Definition make_extra (magic : bytes) (block : bytes) : option extra :=
  match cstr block with
  | None => None
  | Some m =>
      let len := length m + 1 in
      match skipn len block with
      | lo :: hi :: ap :: fl :: _ =>
          let len := len + 4 + length magic in
          match cstr (skipn len block) with
          | None => None
          | Some d =>
              Some (mkx (u16 (N.of_nat len)) (u16 (N.of_nat len + N.of_nat (length d) + 1))
                        (N_of_ascii lo + 256 * N_of_ascii hi) ap fl)
          end
      | _ => None
      end
  end.

(** match_details (matches_lookaside.h 19-34, 102-106): the fields as the callers see them. *)
Record details := mkd { d_type : N; d_display : option bytes; d_desc : option bytes; d_append : byte; d_flags : byte }.
Definition details_of (block : bytes) (x : extra) : option details :=
  match at_offset block (x_display x), at_offset block (x_desc x) with
  | Some d, Some s => Some (mkd (x_type x) (Some d) (Some s) (x_append x) (x_flags x))
  | _, _ => None
  end.
Definition no_details : details := mkd 0 None None NUL NUL.

(** ** Tables *)
(** A lookaside: the array it belongs to, and the map from pointers; alloc failures are not modelled. *)
Record table := mktab { t_array : N; t_map : list (N * extra) }.
(** s_lookasides, s_match and s_extra (127, 191-192); 0 is nullptr. *)
Record state := mks { tables : list table; one_match : N; one_extra : extra }.
Definition x_zero : extra := mkx 0 0 0 NUL NUL.
Definition init : state := mks [] 0 x_zero.

Section Mem.
Variable magic : bytes.
(** The block behind a pointer. *)
Variable mem : N -> option bytes.

(** unordered_map::emplace keeps what is there. *)
Definition emplace (p : N) (x : extra) (m : list (N * extra)) : list (N * extra) :=
  if existsb (fun e => N.eqb (fst e) p) m then m else (p, x) :: m.
Definition lookup (m : list (N * extra)) (p : N) : option extra := option_map snd (find (fun e => N.eqb (fst e) p) m).
(** The constructor (130-137): [ptrs] are the entries after the first up to the nullptr; None: reads behind a block. *)
Fixpoint fill (ptrs : list N) (m : list (N * extra)) : option (list (N * extra)) :=
  match ptrs with
  | [] => Some m
  | p :: r => match mem p with
              | None => None
              | Some b => match make_extra magic b with None => None | Some x => fill r (emplace p x m) end
              end
  end.
(** create_matches_lookaside (213-231) *)
Definition create (s : state) (arr : N) (ptrs : list N) : option state :=
  match fill ptrs [] with None => None | Some m => Some (mks (mktab arr m :: tables s) (one_match s) (one_extra s)) end.
(** destroy_matches_lookaside (234-252) *)
Fixpoint remove (arr : N) (ts : list table) : list table :=
  match ts with [] => [] | t :: r => if N.eqb (t_array t) arr then r else t :: remove arr r end.
Definition destroy (s : state) (arr : N) : state := mks (remove arr (tables s)) (one_match s) (one_extra s).
(** set_matches_lookaside_oneoff, clear_matches_lookaside_oneoff (255-268) *)
Definition set_oneoff (s : state) (p t : N) (ap fl : byte) : state :=
  mks (tables s) p (mkx (x_display (one_extra s)) (x_desc (one_extra s)) t ap fl).
Definition clear_oneoff (s : state) : state := mks (tables s) 0 x_zero.
(** lookup_match (195-210) and the getters; [p] is not nullptr. *)
Fixpoint lookup_tables (ts : list table) (p : N) : option extra :=
  match ts with [] => None | t :: r => match lookup (t_map t) p with Some x => Some x | None => lookup_tables r p end end.
Definition lookup_match (s : state) (p : N) : option details :=
  let x := if N.eqb (one_match s) p then Some (one_extra s) else lookup_tables (tables s) p in
  match x with
  | None => Some no_details
  | Some x => match mem p with None => None | Some b => details_of b x end
  end.
End Mem.
