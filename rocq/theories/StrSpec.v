(** What string buffers are and contain. *)
From Verif Require Import Base StrModel.

(** The units before the first NUL. *)
Fixpoint cstr (m : list N) : list N :=
  match m with
  | [] => []
  | u :: m' => if (u =? 0)%N then [] else u :: cstr m'
  end.

Definition no_nul (t : list N) : Prop := Forall (fun u => u <> 0%N) t.
Definition has_nul (m : list N) : Prop := In 0%N m.

(** Well-formed string buffers: the capacity lies within the memory, a NUL lies within the capacity, and a known length
    is the position of a NUL within the capacity.  The array of a str_moveable (one unit) is a NUL. *)
Record wf (max_size : nat) (s : str) : Prop := {
  wf_size : 1 <= s_size s <= length (s_mem s);
  wf_max : s_size s <= max_size;
  wf_inl : 1 <= length (s_inl s) <= max_size;
  wf_inl_nul : length (s_inl s) = 1 -> has_nul (s_inl s);
  wf_nul : has_nul (firstn (s_size s) (s_mem s));
  wf_len : s_len s <> 0 -> s_len s < s_size s /\ nth_error (s_mem s) (s_len s) = Some 0%N }.

(** The contents: what is before the known length (which can include NULs), else the C string. *)
Definition contents (s : str) : list N :=
  match s_len s with 0 => cstr (s_mem s) | n => firstn n (s_mem s) end.

(** Operations a program may do: sources are readable as far as they are read, raw writes stay within the capacity and
    are NUL terminated. *)
Definition op_ok (s : str) (o : op) : Prop :=
  match o with
  | OConcat src None | OCopy src => has_nul src
  | OConcat src (Some n) => n <= length src \/ has_nul src
  | OConcatNt src n => n <= length src
  | OWrite us => length us <= s_size s /\ has_nul us
  | OConverted f => no_nul f
  | _ => True
  end.

(** The heap block owned by a string. *)
Definition own (s : str) : list nat := match s_heap s with Some (b, _) => [b] | None => [] end.

(** trim: blanks and tabs in front, also line breaks at the end. *)
Fixpoint trim_front (t : list N) : list N :=
  match t with
  | [] => []
  | u :: t' => if (u =? 32)%N || (u =? 9)%N then trim_front t' else t
  end.
Fixpoint trim_back (t : list N) : list N :=
  match t with
  | [] => []
  | u :: t' => match trim_back t' with
               | [] => if (u =? 32)%N || (u =? 9)%N || (u =? 13)%N || (u =? 10)%N then [] else [u]
               | r => u :: r
               end
  end.

(** All live strings of a world, and the blocks they own. *)
Definition owns (l : list (option str)) : list nat := flat_map (fun o => match o with Some s => own s | None => [] end) l.

(** Steps a program may take: moves between strings of equal type, detach and the other move only for str_moveable. *)
Definition sstep_ok (max_size : nat) (w : sworld) (st : sstep) : Prop :=
  match st with
  | WNew g _ => 1 <= length g <= max_size
  | WOp i o => forall s, get (sw_strs w) i = Some s -> op_ok s o
  | WMove i j => forall s r, get (sw_strs w) i = Some s -> get (sw_strs w) j = Some r -> s_grow s = s_grow r
  | WMoveM i j => forall s r, get (sw_strs w) i = Some s -> get (sw_strs w) j = Some r ->
      length (s_inl s) = 1 /\ length (s_inl r) = 1
  | WDetach i => forall s, get (sw_strs w) i = Some s -> length (s_inl s) = 1
  | WAttachDet i b m => has_nul m /\ 1 <= length m <= max_size
  | _ => True
  end.

Inductive sreach (max_size : nat) (fresh : nat -> nat -> list N) : sworld -> Prop :=
| sreach_init : sreach max_size fresh (mkSW (mkH 0 []) [] [])
| sreach_step w st w' : sreach max_size fresh w -> sstep_ok max_size w st -> sstep_do max_size fresh w st = Some w' ->
    sreach max_size fresh w'.
