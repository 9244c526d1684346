(** What the users of linear allocators rely on. *)
From Verif Require Import Base AllocModel.

(** A piece of memory handed out: by which allocator, where, how long, and its contents if it was stored. *)
Record piece := P_ { p_al : nat; p_blk : nat; p_off : N; p_len : N; p_txt : option (list N) }.

Inductive op :=
| New (i : nat) (size : N)
| Alloc (ok1 ok2 : bool) (i : nat) (size : N)
| Store (ok1 ok2 : bool) (i : nat) (str : list N)
| Reset (i : nat)
| Clear (i : nat)
| Move (i j : nat).

(** Running an operation, and keeping the list of pieces that may still be used. *)
Definition drop (i : nat) (l : list piece) : list piece := filter (fun p => negb (Nat.eqb (p_al p) i)) l.
Definition give (i j : nat) (l : list piece) : list piece :=
  map (fun p => if Nat.eqb (p_al p) j then P_ i (p_blk p) (p_off p) (p_len p) (p_txt p) else p) l.

Definition step (s : st * list piece) (o : op) : option (st * list piece) :=
  let (m, l) := s in
  match o with
  | New i size => match renew i size m with None => None | Some m => Some (m, drop i l) end
  | Alloc ok1 ok2 i size =>
      match alloc ok1 ok2 i size m with
      | None => None
      | Some (None, m) => Some (m, l)
      | Some (Some (k, off), m) => Some (m, P_ i k off size None :: l)
      end
  | Store ok1 ok2 i str =>
      match store ok1 ok2 i str m with
      | None => None
      | Some (None, m) => Some (m, l)
      | Some (Some (k, off), m) => Some (m, P_ i k off (N.of_nat (length str) + 1) (Some (str ++ [0%N])) :: l)
      end
  | Reset i => match free_chain true i m with None => None | Some m => Some (m, drop i l) end
  | Clear i => match free_chain false i m with None => None | Some m => Some (m, drop i l) end
  | Move i j => match move i j m with None => None | Some m => Some (m, if Nat.eqb i j then drop i l else give i j (drop i l)) end
  end.

Fixpoint run (s : st * list piece) (ops : list op) : option (st * list piece) :=
  match ops with
  | [] => Some s
  | o :: ops => match step s o with None => None | Some s => run s ops end
  end.

Definition init : st * list piece := (S_ (fun _ => None) (fun _ _ => 0%N) 0 (fun _ => construct 0), []).

(** Page sizes up to 2 GB, sizes and strings that a uint32 can hold. *)
Definition op_ok (o : op) : Prop :=
  match o with
  | New _ size => (size <= 2147483648)%N
  | Alloc _ _ _ size => (size < 4294967296)%N
  | Store _ _ _ str => (N.of_nat (length str) + 1 < 4294967296)%N
  | _ => True
  end.

Definition overlap (p q : piece) : Prop :=
  p_blk p = p_blk q /\ (p_off p < p_off q + p_len q)%N /\ (p_off q < p_off p + p_len p)%N.

(** A piece lies in an allocated block behind the link, and holds what was stored. *)
Definition piece_ok (s : st) (p : piece) : Prop :=
  (exists size l, hp s (p_blk p) = Some (size, l) /\ (word <= p_off p)%N /\ (p_off p + p_len p <= size)%N) /\
  (0 < p_len p)%N /\
  (forall t, p_txt p = Some t -> N.of_nat (length t) = p_len p /\
     forall k, k < length t -> mem s (p_blk p) (p_off p + N.of_nat k) = nth k t 0%N).
