(** What normalising a path means, element by element. *)
From Verif Require Import Base CmpModel CmpSpec.

Definition elem := (list N * bool)%type.      (* an element, and whether a separator follows it *)
Definition dot : list N := [46%N].
Definition dotdot : list N := [46%N; 46%N].
Definition dot_name (n : list N) : bool := match n with c :: _ => N.eqb c 46 | [] => false end.
Definition proper (n : list N) : Prop := n <> [] /\ Forall (fun c => ~ sep c) n.

(** The elements of a path (after the drive and root): runs of separators are skipped; only separators make one
    empty element. *)
Inductive elems : list N -> list elem -> Prop :=
| EL_nil : elems [] []
| EL_seps s : s <> [] -> Forall sep s -> elems s [([], false)]
| EL_last s n : Forall sep s -> proper n -> elems (s ++ n) [(n, false)]
| EL_more s n c r es : Forall sep s -> proper n -> sep c -> elems r es -> elems (s ++ n ++ c :: r) ((n, true) :: es).

Definition join (sepc : N) (es : list elem) : list N :=
  flat_map (fun e : elem => fst e ++ if snd e then [sepc] else []) es.

Definition eqb_name (a b : list N) : bool := if list_eq_dec N.eq_dec a b then true else false.

(** How many elements may be taken back (None: any number), whether the root separator is present, what is kept
    (last first). *)
Definition nstate := (option nat * bool * list elem)%type.

Definition nstep (unc dots eat : bool) (st : nstate) (e : elem) : nstate :=
  let '(count, root, stack) := st in
  let n := fst e in
  let push := if eqb_name n [] then stack else e :: stack in
  if dots && eqb_name n dot then st
  else if dots && eqb_name n dotdot then
    match count with
    | Some O => if eat then st else (count, root || unc, push)
    | _ => (option_map pred count,
            match stack with [] => root && negb unc | _ => root end,
            tl stack)
    end
  else (if dots && dot_name n then count else option_map S count, root || unc, push).

Definition nfold (unc dots eat : bool) (es : list elem) (st : nstate) : nstate := fold_left (nstep unc dots eat) es st.

(** The text of a state. *)
Definition ntext (sepc : N) (st : nstate) : list N :=
  let '(_, root, stack) := st in (if root then [sepc] else []) ++ join sepc (rev stack).
