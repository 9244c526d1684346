(** Model of clink/core/src/path.cpp (Windows).  A path is the list of its bytes, without the terminating NUL (reading
    the NUL yields 0); a pointer into a path is the list of the bytes from there on, or an index.  iswalpha is the
    variable [walpha]; isalpha (587) is taken to be the same. *)
From Verif Require Import Base CmpModel.

Definition at_ (l : list N) (i : nat) : N := nth i l 0%N.
Definition sep_at (l : list N) (i : nat) : bool := is_separator (at_ l i).

(** skip_sep, skip_nonsep (35-46). *)
Fixpoint skip_sep (l : list N) : list N :=
  match l with c :: l' => if is_separator c then skip_sep l' else l | [] => [] end.
Fixpoint skip_nonsep (l : list N) : list N :=
  match l with c :: l' => if is_separator c then l else skip_nonsep l' | [] => [] end.

(** is_unc (670-720): the pointer past the server and share. *)
Definition is_unc (path : list N) : option (list N) :=
  if negb (sep_at path 0) || negb (sep_at path 1) then None
  else
    let p := skip_sep path in
    let leading := length path - length p in
    if (at_ p 0 =? 46)%N && ((at_ p 1 =? 0)%N || sep_at p 1) then None
    else
      let past_server_share (p : list N) := Some (skip_nonsep (skip_sep (skip_nonsep p))) in
      if Nat.eqb leading 2 && (at_ p 0 =? 63)%N && sep_at p 1 then
        let p := skip_sep (tl p) in
        if negb ((at_ p 0 =? 85) || (at_ p 0 =? 117))%N then None
        else if negb ((at_ p 1 =? 78) || (at_ p 1 =? 110))%N then None
        else if negb ((at_ p 2 =? 67) || (at_ p 2 =? 99))%N then None
        else if negb (sep_at p 3) then None
        else past_server_share (skip_sep (skipn 3 p))
      else past_server_share p.

(** past_ssqs (path.h 55-68). *)
Definition past_ssqs (p : list N) : list N :=
  if negb (sep_at p 0) then p
  else if negb (sep_at p 1) then p
  else if negb (at_ p 2 =? 63)%N then p
  else if negb (sep_at p 3) then p
  else skip_sep (skipn 4 p).

Section Path.
Variable walpha : N -> bool.

(** past_drive (49-58). *)
Definition past_drive (path : list N) : list N :=
  match is_unc path with
  | Some p => p
  | None =>
      let p := past_ssqs path in
      if walpha (at_ p 0) && (at_ p 1 =? 58)%N then skipn 2 p else p
  end.

(** The index of the drive's end. *)
Definition drive_len (path : list N) : nat := length path - length (past_drive path).

(** get_last_separator (61-68): the index. *)
Fixpoint last_sep (l : list N) (i : nat) (found : option nat) : option nat :=
  match l with
  | [] => found
  | c :: l' => last_sep l' (S i) (if is_separator c then Some i else found)
  end.

(** The backward scan of 99-107 from index [i] down to [p]: the result is the first_slash (after ++). *)
Fixpoint first_slash (path : list N) (p i : nat) : nat :=
  if Nat.ltb i p then S i
  else if negb (sep_at path i) then S i
  else match i with O => O | S j => first_slash path p j end.

(** get_directory_end (81-113). *)
Definition get_directory_end (path : list N) : nat :=
  let p := drive_len path in
  let p := if (Nat.eqb p 0 || (at_ path (p - 1) =? 58)%N) && sep_at path p then S p else p in
  match last_sep (skipn p path) p None with
  | None => p
  | Some slash =>
      let first := first_slash path p slash in
      if Nat.eqb first p then slash else first
  end.

(** get_directory (288-302). *)
Definition get_directory (path : list N) : list N := firstn (get_directory_end path) path.

(** get_name (387-399). *)
Definition get_name (path : list N) : list N :=
  let p := drive_len path in
  match last_sep (skipn p path) p None with
  | None => skipn p path
  | Some slash => skipn (S slash) path
  end.

(** get_extension (342-367). *)
Fixpoint ext_scan (l : list N) (ext : option (list N)) : option (list N) :=
  match l with
  | [] => ext
  | c :: l' =>
      ext_scan l' (if (c =? 46)%N then Some l
                   else if ((c =? 32) || (c =? 47) || (c =? 92) || (c =? 58))%N then None else ext)
  end.
Definition get_extension (path : list N) : option (list N) :=
  match ext_scan path None with
  | Some [_] => None
  | e => e
  end.

(** find_root, is_rooted, is_root (466-501). *)
Definition is_rooted (path : list N) : bool :=
  let child := past_drive path in
  ((at_ child 0 =? 0)%N || sep_at child 0) && sep_at child 0.
Definition is_root (path : list N) : bool :=
  let child := past_drive path in
  ((at_ child 0 =? 0)%N || sep_at child 0) && match skip_sep child with [] => true | _ => false end.

(** append (570-598); the buffer can grow (C23). *)
Definition append (out rhs : list N) : list N :=
  if is_rooted rhs then rhs
  else
    let add :=
      match out with
      | [] => false
      | _ => negb (sep_at out (length out - 1)) &&
             match is_unc out with
             | Some _ => true
             | None => let i := past_ssqs out in
                       negb (walpha (at_ i 0) && (at_ i 1 =? 58)%N && (at_ i 2 =? 0)%N)
             end
      end in
    out ++ (if add && negb (sep_at rhs 0) then [92%N] else []) ++ rhs.

(** maybe_strip_last_separator (603-612). *)
Fixpoint strip_down (path : list N) (start len : nat) : nat :=
  match len with
  | O => O
  | S k => if Nat.ltb start len && sep_at path k then strip_down path start k else len
  end.
Definition maybe_strip_last_separator (path : list N) : list N :=
  let start := drive_len path in
  let start := if sep_at path start then S start else start in
  firstn (strip_down path start (length path)) path.

(** to_parent (627-664): the parent, the child, whether something changed. *)
Fixpoint nonsep_down (path : list N) (n : nat) : nat :=
  match n with
  | O => O
  | S k => if negb (sep_at path k) then nonsep_down path k else n
  end.
Definition to_parent (path : list N) : list N * list N * bool :=
  let start := drive_len path in
  let start := if Nat.ltb 0 start && (at_ path (start - 1) =? 58)%N
               then length path - length (skip_sep (skipn start path)) else start in
  let child_end := strip_down path 0 (length path) in
  let e := nonsep_down path child_end in
  let e := if Nat.ltb e start then start else e in
  (** concat(ptr, n) takes the whole string if n < 0 (str.h) *)
  let child := if Nat.ltb child_end e then skipn e path else firstn (child_end - e) (skipn e path) in
  let e := strip_down path start e in
  (firstn e path, child, negb (Nat.eqb (length (firstn e path)) (length path))).
End Path.

(** normalise_separators (243-251). *)
Definition normalise_separators (p : list N) (sep : N) : list N :=
  map (fun c => if is_separator c then sep else c) p.

(** next_element (264-272). *)
Definition next_element (l : list N) : option (list N) :=
  match l with
  | [] => None
  | _ => Some (tl (skip_nonsep (skip_sep l)))
  end.

Section Normalise.
Variable walpha : N -> bool.
Variable before : option N.         (* the byte before the buffer, if it may be read *)

(** The copy loop for the drive (156-166): what is written, and where in_out ends up. *)
Fixpoint copy_drive (fuel : nat) (l past : list N) : list N * list N :=
  match fuel with
  | O => ([], l)
  | S k =>
      if Nat.ltb (length past) (length l) then
        match l with
        | [] => ([], [])
        | c :: l' =>
            let '(w, r) := copy_drive k (if is_separator c then skip_sep l else l') past in (c :: w, r)
        end
      else ([], l)
  end.

(** 145-168: the bytes before in_out, in_out, dots, eat_extra_dots.  The bytes that were copied come first, but
    in_out is where the reading has ended: the bytes between still are the old ones. *)
Definition norm_drive (p : list N) : list N * list N * bool * bool :=
  if sep_at p 0 && sep_at p 1 && (at_ p 2 =? 46)%N && sep_at p 3 then ([], p, false, false)
  else
    let past := past_drive walpha p in
    let lead := sep_at p 0 && sep_at p 1 in
    let eat := Nat.ltb (length past) (length p) && lead && (at_ p 2 =? 63)%N in
    let skip := if Nat.ltb (length past) (length p) && lead then 2 else 0 in
    let '(w, r) := copy_drive (length p) (skipn skip p) past in
    let upto := length p - length r in
    (firstn skip p ++ w ++ firstn (upto - skip - length w) (skipn (skip + length w) p), r, true, eat).

(** The loop at 207-212; [out]: what is written from in_out on, latest first; [start]: how much of it stays;
    [prev]: the byte before in_out. *)
Fixpoint back_up (fuel : nat) (prev : option N) (start : nat) (out : list N) : option (list N) :=
  match fuel with
  | O => Some out
  | S k =>
      if Nat.ltb start (length out) then
        let out := tl out in
        match match out with c :: _ => Some c | [] => prev end with
        | None => None
        | Some c => if is_separator c then Some out else back_up k prev start out
        end
      else Some out
  end.

(** Copying [bytes], of which the first is at index [rd] (229-230): None if a byte not yet read were overwritten. *)
Fixpoint copy_bytes (sep : N) (bytes : list N) (rd : nat) (out : list N) : option (list N) :=
  match bytes with
  | [] => Some out
  | c :: l => if Nat.ltb rd (length out) then None
              else copy_bytes sep l (S rd) ((if is_separator c then sep else c) :: out)
  end.

Fixpoint norm_loop (fuel : nat) (sep : N) (unc dots eat : bool) (prev : option N) (start total : nat)
    (count : N) (out rest : list N) : option (list N) :=
  match fuel with
  | O => None
  | S k =>
      match next_element rest with
      | None => Some out
      | Some next =>
          let read := skip_sep rest in
          let rd := total - length read in
          let copy count :=
            let add := unc && Nat.eqb (length out) start in
            if add && negb (Nat.ltb (length out) rd) then None
            else
              let out := if add then sep :: out else out in
              match copy_bytes sep (firstn (length read - length next) read) rd out with
              | None => None
              | Some out => norm_loop k sep unc dots eat prev start total count out next
              end in
          if (at_ read 0 =? 46)%N && dots then
            let two_dot := (at_ read 1 =? 46)%N in
            let c := at_ read (if two_dot then 2 else 1) in
            if is_separator c || (c =? 0)%N then
              if negb two_dot then norm_loop k sep unc dots eat prev start total count out next
              else if negb (count =? 0)%N then
                match back_up (length out) prev start out with
                | None => None
                | Some out => norm_loop k sep unc dots eat prev start total (count - 1) out next
                end
              else if eat then norm_loop k sep unc dots eat prev start total count out next
              else copy count
            else copy count
          else copy ((count + 1) mod 4294967296)%N
      end
  end.

(** normalise (138-234).  None: a byte before the buffer was read though it must not be, or a byte not yet read was
    overwritten. *)
Definition normalise (p : list N) (sep : N) : option (list N) :=
  let unc := match is_unc p with Some _ => true | None => false end in
  let '(pre, rest, dots, eat) := norm_drive p in
  let rooted := sep_at rest 0 in
  let out := if rooted then [sep] else [] in
  let start := length out - (if rooted && unc then 1 else 0) in
  let prev := match rev pre with c :: _ => Some c | [] => before end in
  match norm_loop (S (length rest)) sep unc dots eat prev start (length rest)
          (if rooted then 2147483647%N else 0%N) out (if rooted then tl rest else rest) with
  | None => None
  | Some out => Some (pre ++ rev out)
  end.
End Normalise.
