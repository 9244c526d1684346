(** What the directory history is expected to hold. *)
From Verif Require Import Base CmpModel PathModel CdModel CdSpec.
Local Open Scope N_scope.

(** The last [n] of a list. *)
Definition lastn {A} (n : nat) (l : list A) : list A := skipn (length l - n) l.
(** Each run of prompts in one directory counts once: at its first prompt. *)
Definition differs (p : option text) (c : text) : bool := match p with None => true | Some d => negb (eqt (map lowerN d) (map lowerN c)) end.
Definition arrivals (l : list text) : list text := map snd (filter (fun pc => differs (fst pc) (snd pc)) (combine (None :: map Some l) l)).
(** Each directory counts once: at its last prompt. *)
Fixpoint latest (l : list text) : list text :=
  match l with [] => [] | c :: r => if existsb (fun d => eqt (map lowerN c) (map lowerN d)) r then latest r else c :: latest r end.
(** Going back from the end of the prompts, [d] is the first directory that differs from the last one. *)
Inductive before_that : list text -> text -> Prop :=
| bt l d run c : run <> [] -> Forall (fun x => same_letters x c) run -> ~ same_letters d c -> before_that (l ++ d :: run) d.
Definition one_place (l : list text) : Prop := forall c d, In c l -> In d l -> same_letters c d.
