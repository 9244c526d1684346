(** What editing cmd.exe's AutoRun value is to do. *)
From Verif Require Import Base AutorunModel.

(** A value is a list of commands with "&" between them. *)
Fixpoint joined (cs : list bytes) : bytes :=
  match cs with [] => [] | [c] => c | c :: r => c ++ "&"%char :: joined r end.
Definition command (c : bytes) : Prop := ~ In "&"%char c.
Definition occurs (n l : bytes) : Prop := exists a b, l = a ++ n ++ b.
(** Starting the program: the ways clink's program is named, in quotes or not. *)
Definition starts_clink (c : bytes) : Prop := exists n, In n needles /\ occurs n c.
(** The program's path is in quotes: there is one before every place where its name is. *)
Definition quoted_entry (c : bytes) : Prop := starts_clink c /\ forall n a b, In n needles -> c = a ++ n ++ b -> In QUOTE a.

Definition lead (c : byte) : Prop := In c [SPC; TAB; LF; ascii_of_nat 11; ascii_of_nat 12; CR; "&"%char].
(** The value left over is [l] without blanks and "&" at its start; when nothing is left there is no value. *)
Definition left_over (l : bytes) (v : option bytes) : Prop :=
  exists z r, l = z ++ r /\ Forall lead z /\ (forall c q, r = c :: q -> ~ lead c) /\ v = (match r with [] => None | _ => Some r end).
(** [a] without the empty command at its end: there is one when "&&" comes before the entry. *)
Definition without_empty (a a' : list bytes) : Prop := a = a' ++ [[]] \/ (a = a' /\ forall x, a <> x ++ [[]]).

(** The command installed. *)
Definition new_entry (path args : bytes) : bytes :=
  QUOTE :: path ++ lit "\clink.bat"" inject --autorun" ++ (match args with [] => [] | _ => SPC :: args end).
Definition tidy (v : bytes) : Prop := v <> [] /\ forall c r, v = c :: r -> ~ lead c.

(** The arguments of a command line by the rules of the Microsoft C runtime: [bs] backslashes were just read, [q]: in quotes,
    [cur]: the argument so far (None: between arguments). *)
Definition more (cur : option bytes) (bs : nat) (t : bytes) : option bytes :=
  Some (match cur with Some c => c | None => [] end ++ repeat BSL bs ++ t).
Fixpoint argv (l : bytes) (bs : nat) (q : bool) (cur : option bytes) : list bytes :=
  match l with
  | [] => match more cur bs [] with Some c => match cur, bs with None, 0 => [] | _, _ => [c] end | None => [] end
  | c :: r =>
      if Ascii.eqb c BSL then argv r (S bs) q cur
      else if Ascii.eqb c QUOTE then
        if Nat.odd bs then argv r 0 q (more cur (Nat.div2 bs) [QUOTE])
        else match r with
             | d :: r' => if q && Ascii.eqb d QUOTE then argv r' 0 q (more cur (Nat.div2 bs) [QUOTE])
                          else argv r 0 (negb q) (more cur (Nat.div2 bs) [])
             | [] => argv r 0 (negb q) (more cur (Nat.div2 bs) [])
             end
      else if (Ascii.eqb c SPC || Ascii.eqb c TAB) && negb q then
        match cur, bs with
        | None, 0 => argv r 0 false None
        | _, _ => match more cur bs [] with Some x => x :: argv r 0 false None | None => [] end
        end
      else argv r 0 q (more cur bs [c])
  end.
Definition arguments (l : bytes) : list bytes := argv l 0 false None.
