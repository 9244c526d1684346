(** What splitting a text into tokens means, on characters (independent of TokModel). *)
From Verif Require Import Base.

Section Spec.
Variable isd : N -> bool.            (** delimiter characters *)
Variable close : N -> option N.      (** opening quotes and the character closing them *)

(** For each character: is it an unquoted delimiter?  A quoted region begins at an opening character that is not
    itself a delimiter and ends with the next occurrence of its closing character; regions do not nest. *)
Fixpoint unquoted_delims (q : option N) (vs : list N) : list bool :=
  match vs with
  | [] => []
  | c :: r =>
      match q with
      | Some x => false :: unquoted_delims (if N.eqb c x then None else q) r
      | None => if isd c then true :: unquoted_delims None r else false :: unquoted_delims (close c) r
      end
  end.
End Spec.

(** [cs]: the characters, each with the number of units it occupies and whether it is an unquoted delimiter; [o] the
    offset where they start.  The tokens are the maximal runs of other characters, each reported with the delimiter
    before it (0 for a token at the very beginning), its offset and its length. *)
Definition units (cs : list (N * nat * bool)) : nat := list_sum (map (fun x => snd (fst x)) cs).
Definition is_delim (x : N * nat * bool) : Prop := snd x = true.
Definition is_text (x : N * nat * bool) : Prop := snd x = false.

Inductive fields : nat -> list (N * nat * bool) -> list (N * nat * nat) -> Prop :=
| F_end o ds : Forall is_delim ds -> fields o ds []
| F_token o ds w rest res :
    Forall is_delim ds -> w <> [] -> Forall is_text w ->
    match rest with [] => True | x :: _ => is_delim x end ->
    fields (o + units ds + units w) rest res ->
    fields o (ds ++ w ++ rest)
      ((match rev ds with [] => 0%N | x :: _ => fst (fst x) end, o + units ds, units w) :: res).

(** The first of the quote pairs opened by [c]. *)
Fixpoint closing (pairs : list (N * N)) (c : N) : option N :=
  match pairs with
  | [] => None
  | (l, r) :: ps => if N.eqb l c then Some r else closing ps c
  end.
