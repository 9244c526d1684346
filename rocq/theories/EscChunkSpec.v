(** Terminal output written in several pieces. *)
From Verif Require Import Base UtfSpec EscModel EscSpec.

(** No control string inside a control string, and no C1 control inside text. *)
Definition kflat (k : token) : Prop :=
  match k with
  | KText cs => Forall (fun c => ~ (128 <= c <= 159)%N) cs
  | KStr _ _ b _ => Forall strchar b
  | _ => True
  end.
(** clink/terminal/src/ecma48_terminal_out.cpp 266: a new iterator for every write, one state for all of them *)
Fixpoint writes (s : estate) (ts : list (list N)) : option (list ecode * estate) :=
  match ts with
  | [] => Some ([], s)
  | t :: ts =>
    match parse s t with
    | None => None
    | Some (l, s1) => match writes s1 ts with None => None | Some (l2, s2) => Some (l ++ l2, s2) end
    end
  end.
(** Adjacent runs of text are one run of text. *)
Fixpoint merge (l : list (ctype * N * list N)) : list (ctype * N * list N) :=
  match l with
  | [] => []
  | (TChars, v, x) :: r =>
    match merge r with
    | (TChars, _, y) :: r' => (TChars, v, x ++ y) :: r'
    | m => (TChars, v, x) :: m
    end
  | c :: r => c :: merge r
  end.
