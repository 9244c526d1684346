(** What expanding abbreviated directories is to mean. *)
From Verif Require Import Base.
From Verif Require Export AbModel.
Open Scope N_scope.

(** ** A path as typed: a drive or none, directories, a separator and the rest *)
Definition comp : Type := (text * text)%type.
(** / and \ *)
Definition separator (c : N) : bool := (c =? 47) || (c =? 92).
Definition one_sep (s : text) : Prop := exists c, s = [c] /\ separator c = true.
Definition good_char (c : N) : Prop := separator c = false /\ c <> 34 /\ c <> 58 /\ c <> 42 /\ c <> 63.
(** not "." (see the refutation) *)
Definition good_name (n : text) : Prop := n <> [] /\ Forall good_char n /\ n <> [46].
Definition good_path (l : list comp) : Prop :=
  match l with [] => False | (s, n) :: l' => (s = [] \/ one_sep s) /\ good_name n /\ Forall (fun c : comp => one_sep (fst c) /\ good_name (snd c)) l' end.
Definition letter (c : N) : Prop := 65 <= c <= 90 \/ 97 <= c <= 122.
Definition drive_text (d : option N) : text := match d with Some c => [c; 58] | None => [] end.
Definition written (l : list comp) : text := concat (map (fun c : comp => fst c ++ snd c) l).
Definition good_rest (sep : N) (tail : text) : Prop := separator sep = true /\ Forall (fun c => separator c = false /\ c <> 34) tail.
Definition as_typed (d : option N) (l : list comp) (sep : N) (tail : text) : text := drive_text d ++ written l ++ sep :: tail.

Section Fs.
Variable ls : text -> list entry.
Variable same : N -> N -> bool.
Variable cmp : N -> N -> bool.
(** ** The directories that can be meant *)
Definition pairwise (eq : N -> N -> bool) (a b : text) : bool := forallb (fun p : N * N => eq (fst p) (snd p)) (combine a b).
Definition starts (eq : N -> N -> bool) (n t : text) : bool := (length n <=? length t)%nat && pairwise eq n t.
Definition whole_name (n t : text) : bool := (length n =? length t)%nat && pairwise same n t.
Definition candidates (dir n : text) : list entry := filter (fun e => e_dir e && starts same n (e_name e)) (ls dir).
(** the one that has this name, or the only one that starts with it *)
Definition chosen (dir n : text) (e : entry) : Prop := In e (candidates dir n) /\ (whole_name n (e_name e) = true \/ candidates dir n = [e]).
(** every directory is clear; then the path is [out] *)
Inductive sure : text -> list comp -> text -> Prop :=
| s_nil base : sure base [] base
| s_cons base s n l e out : chosen (base ++ s) n e -> sure (base ++ s ++ e_name e) l out -> sure base ((s, n) :: l) out.
(** up to [base], then there is none *)
Inductive lost : text -> list comp -> Prop :=
| l_here base s n l : candidates (base ++ s) n = [] -> lost base ((s, n) :: l)
| l_next base s n l e : chosen (base ++ s) n e -> lost (base ++ s ++ e_name e) l -> lost base ((s, n) :: l).
(** up to [dir], then there are several that start with [n] *)
Inductive several : text -> list comp -> text -> text -> list comp -> Prop :=
| v_here base s n l : (2 <= length (candidates (base ++ s) n))%nat -> (forall e, In e (candidates (base ++ s) n) -> whole_name n (e_name e) = false) -> several base ((s, n) :: l) (base ++ s) n l
| v_next base s n l e dir n' rest : chosen (base ++ s) n e -> several (base ++ s ++ e_name e) l dir n' rest -> several base ((s, n) :: l) dir n' rest.
(** a path that what was typed can mean: a name that is there means that one *)
Inductive meant : text -> list comp -> text -> Prop :=
| m_nil base : meant base [] base
| m_cons base s n l e out : In e (candidates (base ++ s) n) -> ((exists e', In e' (candidates (base ++ s) n) /\ whole_name n (e_name e') = true) -> whole_name n (e_name e) = true) ->
    meant (base ++ s ++ e_name e) l out -> meant base ((s, n) :: l) out.

(** ** The file system *)
(** no name is empty or has separators; no short names (see the refutation); a name that is there comes before those it starts, and there is no other that differs in case only *)
Definition good_entry (e : entry) : Prop := e_name e <> [] /\ Forall (fun c => separator c = false) (e_name e) /\ e_short e = [].
Definition good_fs : Prop :=
  (forall dir, Forall good_entry (ls dir)) /\
  (forall dir n e e' l, candidates dir n = e' :: l -> In e (e' :: l) -> whole_name n (e_name e) = true -> e = e').
(** characters: case and nothing else of the dot; the comparison of text is one that does not see case *)
Definition equivalence (eq : N -> N -> bool) : Prop := (forall x, eq x x = true) /\ (forall x y, eq x y = eq y x) /\ (forall x y z, eq x y = true -> eq y z = true -> eq x z = true).
Definition good_chars : Prop := equivalence same /\ (forall c, same c 46 = true -> c = 46) /\ equivalence cmp /\ (forall x y, same x y = true -> cmp x y = true).
(** [k] characters are common *)
Definition common (k : nat) (a b : text) : Prop := (k <= length a)%nat /\ (k <= length b)%nat /\ pairwise cmp (firstn k a) (firstn k b) = true.
End Fs.
