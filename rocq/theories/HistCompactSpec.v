(** Specification of compaction, on the lists of entries only. *)
From Verif Require Import Base HistSpec.

(** What a user sees of an entry: text and time stamp (an empty one is none). *)
Definition stamp_of (e : ventry) : bytes := match v_ts e with Some (_, t) => t | None => [] end.
Definition shown_as (e : ventry) : bytes * bytes := (v_text e, stamp_of e).

(** Keep the last occurrence of each key. *)
Fixpoint dedup_by {A} (key : A -> bytes) (l : list A) : list A :=
  match l with
  | [] => []
  | e :: l' => if existsb (fun x => eqb_bytes (key x) (key e)) l' then dedup_by key l' else e :: dedup_by key l'
  end.

Definition last_n {A} (n : nat) (l : list A) : list A := skipn (length l - n) l.

Definition uniq_entries (uniq : bool) (es : list ventry) : list ventry :=
  if uniq then dedup_by v_text es else es.

Definition spec_compact (limit : nat) (uniq : bool) (es : list ventry) : list ventry :=
  match limit with O => uniq_entries uniq es | _ => last_n limit (uniq_entries uniq es) end.

(** The parameters for which the code does what the specification says (see c07_uniq_limit_erases_all for
    the others). *)
Definition limit_ok (limit : nat) (uniq : bool) (es : list ventry) : Prop :=
  uniq = false \/ limit = 0 \/ length es <= limit \/ limit <= length (dedup_by v_text es).
