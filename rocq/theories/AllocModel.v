(** Model of clink/core/src/linear_allocator.cpp and clink/core/include/core/linear_allocator.h (64-bit build; the
    DEBUG-only m_footprint left out).  The heap maps block numbers to the size and the first pointer-sized word of the
    block (the link to the next page); malloc hands out new numbers, or fails where the caller of the model says so.
    Using a block that is not allocated, or doing arithmetic on a null m_ptr, is [None]. *)
From Verif Require Import Base.

Definition word : N := 8%N.                        (* sizeof(m_ptr) *)
Definition u32 (n : N) : N := (n mod 4294967296)%N.

(** The members (linear_allocator.h 33-35). *)
Record alc := A_ { a_ptr : option nat; a_used : N; a_max : N }.
(** The heap, the bytes in its blocks, the next block number, and the allocators of the program. *)
Record st := S_ { hp : nat -> option (N * option nat); mem : nat -> N -> N; fresh : nat; al : nat -> alc }.

Definition upd {B} (f : nat -> B) (k : nat) (v : B) : nat -> B := fun x => if Nat.eqb x k then v else f x.

Definition set_al (s : st) (i : nat) (a : alc) : st := S_ (hp s) (mem s) (fresh s) (upd (al s) i a).

Definition malloc (ok : bool) (size : N) (s : st) : option nat * st :=
  if ok then (Some (fresh s), S_ (upd (hp s) (fresh s) (Some (size, None))) (mem s) (S (fresh s)) (al s))
  else (None, s).
Definition free (k : nat) (s : st) : option st :=
  match hp s k with
  | None => None
  | Some _ => Some (S_ (upd (hp s) k None) (mem s) (fresh s) (al s))
  end.
(** *reinterpret_cast<char** >(k), read and written. *)
Definition get_link (k : nat) (s : st) : option (option nat) :=
  match hp s k with None => None | Some (_, l) => Some l end.
Definition set_link (k : nat) (l : option nat) (s : st) : option st :=
  match hp s k with
  | None => None
  | Some (size, _) => Some (S_ (upd (hp s) k (Some (size, l))) (mem s) (fresh s) (al s))
  end.

(** The constructor (13-18). *)
Definition construct (size : N) : alc := A_ None size size.

(** fits, oversized (linear_allocator.h 62-71): the first is computed in 32 bits, the second in size_t. *)
Definition fits (a : alc) (size : N) : bool := (u32 (a_used a + size) <=? a_max a)%N.
Definition oversized (a : alc) (size : N) : bool := (a_max a <? size + word)%N.

(** new_page (82-99). *)
Definition new_page (ok : bool) (i : nat) (s : st) : option (bool * st) :=
  let a := al s i in
  if (a_max a <? word)%N then Some (false, s)
  else match malloc ok (a_max a) s with
       | (None, s) => Some (false, s)
       | (Some temp, s) =>
           match set_link temp (a_ptr a) s with
           | None => None
           | Some s => Some (true, set_al s i (A_ (Some temp) word (a_max a)))
           end
       end.

(** alloc (42-69).  [ok1]: whether malloc in new_page succeeds; [ok2]: whether the other malloc does. *)
Definition alloc (ok1 ok2 : bool) (i : nat) (size : N) (s : st) : option (option (nat * N) * st) :=
  if (size =? 0)%N then Some (None, s)
  else if oversized (al s i) size then
    match (match a_ptr (al s i) with Some _ => Some (true, s) | None => new_page ok1 i s end) with
    | None => None
    | Some (false, s) => Some (None, s)
    | Some (true, s) =>
        match malloc ok2 (size + word)%N s with
        | (None, s) => Some (None, s)
        | (Some big, s) =>
            match a_ptr (al s i) with
            | None => None
            | Some p =>
                match get_link p s with
                | None => None
                | Some l =>
                    match set_link big l s with
                    | None => None
                    | Some s => match set_link p (Some big) s with
                                | None => None
                                | Some s => Some (Some (big, word), s)
                                end
                    end
                end
            end
        end
    end
  else
    match (if fits (al s i) size then Some (true, s) else new_page ok1 i s) with
    | None => None
    | Some (false, s) => Some (None, s)
    | Some (true, s) =>
        let a := al s i in
        match a_ptr a with
        | None => None
        | Some p => Some (Some (p, a_used a), set_al s i (A_ (Some p) (u32 (a_used a + size)) (a_max a)))
        end
    end.

(** store (72-81) of a string, given without its NUL. *)
Definition write_mem (m : nat -> N -> N) (k : nat) (off : N) (l : list N) : nat -> N -> N :=
  fun k' o => if Nat.eqb k' k && (off <=? o)%N && (o <? off + N.of_nat (length l))%N
              then nth (N.to_nat (o - off)) l 0%N else m k' o.
Definition store (ok1 ok2 : bool) (i : nat) (str : list N) (s : st) : option (option (nat * N) * st) :=
  match alloc ok1 ok2 i (u32 (N.of_nat (length str) + 1)) s with
  | None => None
  | Some (None, s) => Some (None, s)
  | Some (Some (k, off), s) =>
      Some (Some (k, off), S_ (hp s) (write_mem (mem s) k off (str ++ [0%N])) (fresh s) (al s))
  end.

(** The loop of free_chain (113-125). *)
Fixpoint free_loop (fuel : nat) (keep_one : bool) (ptr : option nat) (s : st) : option st :=
  match fuel with
  | O => match ptr with None => Some s | Some _ => None end
  | S f =>
      match ptr with
      | None => Some s
      | Some tmp =>
          match get_link tmp s with
          | None => None
          | Some next =>
              match (if keep_one then set_link tmp None s else free tmp s) with
              | None => None
              | Some s => free_loop f false next s
              end
          end
      end
  end.

(** free_chain (101-126): reset keeps one page, clear and the destructor none. *)
Definition free_chain (keep_one : bool) (i : nat) (s : st) : option st :=
  let a := al s i in
  let used := match a_ptr a with Some _ => if keep_one then word else a_max a | None => a_max a end in
  let s' := set_al s i (A_ (if keep_one then a_ptr a else None) used (a_max a)) in
  free_loop (fresh s) keep_one (a_ptr a) s'.

(** operator= (27-39): allocator [j] is moved to [i]. *)
Definition move (i j : nat) (s : st) : option st :=
  match free_chain false i s with
  | None => None
  | Some s =>
      let o := al s j in
      let s := set_al s i (A_ (a_ptr o) (a_used o) (a_max o)) in
      Some (set_al s j (A_ None (a_max (al s j)) (a_max (al s j))))
  end.

(** An allocator is destroyed and another is made in its place. *)
Definition renew (i : nat) (size : N) (s : st) : option st :=
  match free_chain false i s with
  | None => None
  | Some s => Some (set_al s i (construct size))
  end.
