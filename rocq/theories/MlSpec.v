(** What the match list should hold and show. *)
From Verif Require Import Base CmpModel PathModel MlModel.
Local Open Scope N_scope.

(** A match as far as the user sees it *)
Definition item : Type := text * N * N.         (* text, type, the rest *)
Definition text_of (x : item) : text := fst (fst x).
Definition type_of (x : item) : N := snd (fst x).
Definition item_of (e : info) : item := (match_ e, type_ e, extra e).
(** Two matches are duplicates: same text, and same type unless one of them comes from the history. *)
Definition clash (x y : item) : Prop :=
  text_of x = text_of y /\ (type_of x = type_of y \/ from_history (type_of x) = true \/ from_history (type_of y) = true).
Fixpoint all_different (l : list item) : Prop :=
  match l with [] => True | x :: r => Forall (fun y => ~ clash x y) r /\ all_different r end.
(** Of the matches offered, in order, the first of each sort is kept. *)
Inductive kept : list item -> list item -> Prop :=
| K_none : kept [] []
| K_keep l k x : kept l k -> Forall (fun y => ~ clash y x) k -> kept (l ++ [x]) (k ++ [x])
| K_drop l k x : kept l k -> Exists (fun y => clash y x) k -> kept (l ++ [x]) k.
Inductive subsequence {A} : list A -> list A -> Prop :=
| S_nil : subsequence [] []
| S_skip x a b : subsequence a b -> subsequence a (x :: b)
| S_take x a b : subsequence a b -> subsequence (x :: a) (x :: b).

Definition separator (c : N) : Prop := c = 47 \/ c = 92.
(** A name that begins with a dot, in the last component of a path (without its drive) *)
Definition dotted (d : text) : Prop :=
  exists a n z, d = a ++ 46 :: n ++ z /\ Forall (fun c => ~ separator c) n /\ Forall separator z /\
                (a = [] \/ exists b c, a = b ++ [c] /\ separator c).

Section Shown.
Variable walpha : N -> bool.
Variable begins : text -> text -> bool.
Variable wild : text -> text -> bool -> bool -> bool.
(** Files the settings hide *)
Definition allowed (c : config) (t : N) : Prop :=
  (is_system t = true -> files_system c = true) /\
  (is_system t = false -> is_hidden t = true -> match_hidden c = true /\ files_hidden c = true).
Definition not_hidden (c : config) (needle : text) (x : item) : Prop :=
  (match_hidden c = true \/ hd 0 (get_name walpha needle) = 46 \/ ~ dotted (past_drive walpha (text_of x))) /\ allowed c (type_of x).
Definition by_prefix (c : config) (needle : text) (x : item) : Prop := begins needle (text_of x) = true /\ not_hidden c needle x.
(** Separators at the end of a match do not count. *)
Definition body (m b : text) : Prop := exists z, m = b ++ z /\ Forall separator z /\ (b = [] \/ exists b' c, b = b' ++ [c] /\ ~ separator c).
Definition by_pattern (c : config) (pattern : text) (x : item) : Prop :=
  not_hidden c pattern x /\ exists b, body (text_of x) b /\ wild pattern b (dot_prefix c) (negb (is_pathish (type_of x))) = true.
(** Whether a second try with a substring is made *)
Definition second_try (c : config) (needle : text) : Prop :=
  substring c = true /\ needle <> [] /\ hd 0 needle <> 126 /\ hd 0 needle <> 42 /\
  (wild_setting c = true \/ (~ In 63 needle /\ exists a n, needle = a ++ repeat 42 n /\ ~ In 42 a)).
(** The pattern of the second try: a star in front of the last component *)
Definition starred (needle app pattern : text) : Prop :=
  exists a b, needle = a ++ b /\ Forall (fun c => ~ separator c) b /\ (a = [] \/ exists a' c, a = a' ++ [c] /\ separator c) /\
              pattern = a ++ 42 :: b ++ app.

(** ** The list as the user may think of it: the matches, in the order they came, and those of them that are shown. *)
Inductive chosen (P : item -> Prop) : list item -> list item -> Prop :=
| C_nil : chosen P [] []
| C_take x all V : P x -> chosen P all V -> chosen P (x :: all) (x :: V)
| C_skip x all V : ~ P x -> chosen P all V -> chosen P (x :: all) V.
(** Those with [P]; if there are none, those with [Q], where that is allowed. *)
Definition tries (P Q : item -> Prop) (second : Prop) (all V : list item) : Prop :=
  (chosen P all V /\ (V <> [] \/ ~ second)) \/ (chosen P all [] /\ second /\ chosen Q all V).

Inductive act :=
| Select (c : config) (needle : text)          (* show what the needle asks for *)
| Restrict (c : config) (pattern : text)       (* keep nothing else *)
| Keep (ks : list text)                        (* keep these *)
| Sort (order : N).
Definition substring_of (c : config) (needle app : text) (x : item) : Prop := exists p, starred needle app p /\ by_pattern c p x.
Inductive does : act -> list item * list item -> list item * list item -> Prop :=
| D_select c needle all V V' :
    tries (if dot_prefix c || wild_setting c then by_pattern c (needle ++ [42]) else by_prefix c needle) (substring_of c needle [42]) (second_try c needle) all V' ->
    does (Select c needle) (all, V) (all, V')
| D_restrict c pattern all V V' :
    tries (by_pattern c pattern) (substring_of c pattern []) (second_try c pattern) all V' -> does (Restrict c pattern) (all, V) (V', V')
| D_keep ks all V V' : chosen (fun x => In (text_of x) ks) all V' -> does (Keep ks) (all, V) (V', V')
| D_sort order all V : does (Sort order) (all, V) (all, V).
Inductive does_all : list act -> list item * list item -> list item * list item -> Prop :=
| A_nil w : does_all [] w w
| A_cons a l w w' w'' : does a w w' -> does_all l w' w'' -> does_all (a :: l) w w''.
End Shown.

(** What the program does *)
Section Runs.
Variable walpha : N -> bool.
Variable begins : text -> text -> bool.
Variable wild : text -> text -> bool -> bool -> bool.
Variable compare : bool -> text -> text -> Z.
Inductive step : act -> state -> state -> Prop :=
| R_select c needle s : step (Select c needle) s (do_select walpha begins wild c needle s)
| R_restrict c pattern s : step (Restrict c pattern) s (do_restrict walpha wild c pattern s)
| R_keep ks s : step (Keep ks) s (do_keep ks s)
| R_sort order s s' : sorts walpha compare order s s' -> step (Sort order) s s'.
Inductive steps : list act -> state -> state -> Prop :=
| Z_nil s : steps [] s s
| Z_cons a l s s' s'' : step a s s' -> steps l s' s'' -> steps (a :: l) s s''.
(** The offers of the generators *)
Definition offer : Type := item * bool.
Definition build (s : state) (l : list offer) : state :=
  fold_left (fun s o => add_match walpha s (text_of (fst o)) (type_of (fst o)) (snd (fst o)) (snd o)) l s.
End Runs.

(** ** What is put down for an offer *)
Definition fresh (md sp : N) (f : shadow) (dep ns : bool) : state := mks [] 0 None false dep false ns f sp md.
Definition ends_sep (m : text) : Prop := exists a c, m = a ++ [c] /\ separator c.
Definition plain_none (t : N) : Prop := base t = T_NONE /\ from_history t = false.
(** Separators are translated to [c]. *)
Inductive translates (c : N) : text -> text -> Prop :=
| L_nil : translates c [] []
| L_sep x a b : separator x -> translates c a b -> translates c (x :: a) (c :: b)
| L_other x a b : ~ separator x -> translates c a b -> translates c (x :: a) (x :: b).
Section Stored.
Variable walpha : N -> bool.
Variables md sp : N.
Variable f : shadow.
Definition wants_translation (t : N) (norm : bool) : Prop :=
  (2 <= md \/ (md = 1 /\ norm = false)) /\
  (base t = T_DIR \/ base t = T_FILE \/ (base t = T_NONE /\ from_history t = true /\ sget f = true)).
Definition chosen_sep (c : N) : Prop :=
  (md = 2 /\ c = 47) \/ (md = 4 /\ sp <> 0 /\ c = sp) \/ ((md <> 2 /\ (md = 4 -> sp = 0)) /\ c = 92).
Definition stored (o : item * bool) (x : item) : Prop :=
  let m := text_of (fst o) in
  let t := type_of (fst o) in
  snd x = snd (fst o) /\
  (plain_none t /\ ends_sep m -> base (type_of x) = T_DIR /\ forall i, 3 <= i -> N.testbit (type_of x) i = N.testbit t i) /\
  (~ (plain_none t /\ ends_sep m) -> type_of x = t) /\
  exists tail,
    (tail = [] \/ (tail = [92] /\ base (type_of x) = T_DIR /\ ~ ends_sep m)) /\
    (base (type_of x) = T_DIR -> ends_sep (m ++ tail) \/ exists a d, m = a ++ [d; 58] /\ walpha d = true) /\
    (wants_translation (type_of x) (snd o) -> exists c, chosen_sep c /\ translates c (m ++ tail) (text_of x)) /\
    (~ wants_translation (type_of x) (snd o) -> text_of x = m ++ tail).
End Stored.
(** What a match of no type becomes *)
Section Becomes.
Variable attrs : text -> option attr.
Variable c : N.
Definition answer (m : text) (t : N) : Prop :=
  from_history t = false /\
  match attrs m with
  | Some a => base t = (if a_dir a then T_DIR else T_FILE) /\ is_hidden t = a_hidden a /\ is_system t = a_system a
  | None => base t = T_FILE /\ is_hidden t = false /\ is_system t = false
  end.
Definition becomes (x y : item) : Prop :=
  snd y = snd x /\
  (plain_none (type_of x) -> answer (text_of x) (type_of y) /\
     (base (type_of y) = T_DIR -> text_of y = text_of x ++ (if c =? 0 then [] else [c])) /\ (base (type_of y) <> T_DIR -> text_of y = text_of x)) /\
  (~ plain_none (type_of x) -> y = x).
End Becomes.
(** Whether the file system is asked *)
Definition asks (f : shadow) (dep : bool) : Prop := if dep then fst f = Some true else fst f <> Some false.

(** ** The order of sorting *)
Section Precedes.
Variable walpha : N -> bool.
Variable compare : bool -> text -> text -> Z.
Definition dir_item (x : item) : Prop := base (type_of x) = T_DIR \/ (plain_none (type_of x) /\ ends_sep (text_of x)).
Definition leading (m : text) (n : nat) : Prop := exists r, m = repeat 45 n ++ r /\ hd 0 r <> 45.
(** The last separators of a directory do not count (see C29). *)
Definition name_of (x : item) (m : text) : Prop :=
  (dir_item x -> m = maybe_strip_last_separator walpha (text_of x)) /\ (~ dir_item x -> m = text_of x).
Definition rank (t : N) : nat := nth (N.to_nat (base t)) [0; 0; 3; 2; 4; 5; 1; 6]%nat 0%nat.
Definition may_precede (order : N) (x y : item) : Prop :=
  (order = 0 /\ dir_item x /\ ~ dir_item y) \/
  (order <> 0 /\ order <> 1 /\ ~ dir_item x /\ dir_item y) \/
  ((order = 1 \/ (dir_item x <-> dir_item y)) /\
   exists mx my n m, name_of x mx /\ name_of y my /\ leading mx n /\ leading my m /\
     ((n < m)%nat \/ (n = m /\ ((compare true mx my < 0)%Z \/ (compare true mx my = 0%Z /\
       ((compare false mx my < 0)%Z \/ (compare false mx my = 0%Z /\ (rank (type_of x) <= rank (type_of y))%nat))))))).
(** A comparison that is one *)
Definition comparison (k : text -> text -> Z) : Prop :=
  (forall x y, (k x y < 0 <-> k y x > 0)%Z) /\ (forall x y z, (k x y <= 0 -> k y z <= 0 -> k x z <= 0)%Z).
End Precedes.
