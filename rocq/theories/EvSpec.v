(** What expanding environment variables is to mean. *)
From Verif Require Import Base.
From Verif Require Export EvModel.
Open Scope N_scope.

(** ** A text is made of pieces: text without %, a name between two %, or a % that begins no name *)
Inductive piece := Text (t : bytes) | Name (n : bytes) | Percent.
Definition written (p : piece) : bytes := match p with Text t => t | Name n => [37] ++ n ++ [37] | Percent => [37] end.
Definition all_written (ps : list piece) : bytes := concat (map written ps).
(** a % begins no name if another % comes next or if there is no other *)
Fixpoint good (ps : list piece) : Prop :=
  match ps with
  | [] => True
  | Text t :: ps' => ~ In 37 t /\ good ps'
  | Name n :: ps' => n <> [] /\ ~ In 37 n /\ good ps'
  | Percent :: ps' => ((exists l, all_written ps' = 37 :: l) \/ ~ In 37 (all_written ps')) /\ good ps'
  end.
Section Env.
Variable env : bytes -> option bytes.
(** names of variables become their values; nothing else changes *)
Definition is_variable (p : piece) : bool := match p with Name n => match env n with Some _ => true | None => false end | _ => false end.
Definition becomes (p : piece) : bytes := match p with Name n => match env n with Some v => v | None => written p end | _ => written p end.
Definition all_become (ps : list piece) : bytes := concat (map becomes ps).
Definition variables (ps : list piece) : nat := length (filter is_variable ps).
(** the cursor: it stays where it is in what stays, and goes to the end of the value if it was in or right after the name *)
Definition inside (p : piece) (c : nat) : nat := if is_variable p then match c with O => O | _ => length (becomes p) end else c.
Fixpoint cursor (ps : list piece) (c : nat) : nat :=
  match ps with
  | [] => c
  | p :: ps' => if (c <=? length (written p))%nat then inside p c else (length (becomes p) + cursor ps' (c - length (written p)))%nat
  end.
(** where the first variable begins, or the end *)
Fixpoint first_variable (ps : list piece) : nat := match ps with [] => O | p :: ps' => if is_variable p then O else (length (written p) + first_variable ps')%nat end.
End Env.
