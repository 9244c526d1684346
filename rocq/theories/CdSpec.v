(** What the directory shortcuts are expected to do. *)
From Verif Require Import Base CmpModel PathModel CdModel.
Local Open Scope N_scope.

Definition blanks (b : text) : Prop := Forall (fun c => c = 32 \/ c = 9) b.
(** Letters count the same in either case. *)
Definition same_letters (a b : text) : Prop := map lowerN a = map lowerN b.

(** ** One token *)
(** The line behind its first blanks. *)
Definition trimmed (line l : text) : Prop := exists b, blanks b /\ line = b ++ l /\ match l with c :: _ => c <> 32 /\ c <> 9 | [] => True end.
(** Position [p] is quoted: an odd number of quotes before it. *)
Definition quoted_at (l : text) (p : nat) : bool := Nat.odd (count_occ N.eq_dec (firstn p l) 34).
Definition plain_blank (l : text) (p : nat) (c : N) : bool := ((c =? 32) || (c =? 9)) && negb (quoted_at l p).
(** What is left of the line: no quotes, no plain carets (but at the very end), no plain blanks. *)
Definition kept (l : text) (p : nat) (c : N) : bool :=
  negb (c =? 34) && negb ((c =? 94) && negb (quoted_at l p) && (S p <? length l)%nat) && negb (plain_blank l p c).
Definition at_all {A} (f : nat -> N -> A) (l : text) : list A := map (fun pc => f (fst pc) (snd pc)) (combine (seq 0 (length l)) l).
Definition word (l : text) : text := map snd (filter (fun pc => kept l (fst pc) (snd pc)) (combine (seq 0 (length l)) l)).
(** A character that makes the line no directory. *)
Definition bad (l : text) (p : nat) (c : N) : Prop :=
  In c (tx "<|>") \/ In c (tx "@()&+=;,") /\ quoted_at l p = false \/
  plain_blank l p c = true /\ exists q d, (p < q)%nat /\ nth_error l q = Some d /\ d <> 32 /\ d <> 9.
(** The line begins with the name of a command followed by a dot or separator. *)
Definition stop (c : N) : bool := has c (tx "./\""^%").
Definition command_first (l : text) : Prop :=
  exists w c r, l = w ++ c :: r /\ In c (tx "./\") /\ Forall (fun d => stop d = false) w /\ exists n, In n commands /\ same_letters w n.
Definition one_token (l : text) : Prop := (forall p c, nth_error l p = Some c -> ~ bad l p c) /\ ~ command_first l.

(** ** Environment variables *)
Section Env.
Variable env : text -> option text.
Inductive expanded : text -> text -> Prop :=
| ex_nil : expanded [] []
| ex_char c l o : c <> 37 -> expanded l o -> expanded (c :: l) (c :: o)
| ex_var n v l o : n <> [] -> ~ In 37 n -> env n = Some v -> expanded l o -> expanded (37 :: n ++ 37 :: l) (v ++ o)
| ex_unknown n l o : n <> [] -> ~ In 37 n -> env n = None -> expanded l o -> expanded (37 :: n ++ 37 :: l) (37 :: n ++ 37 :: o)
| ex_double l o : expanded (37 :: l) o -> expanded (37 :: 37 :: l) (37 :: o)
| ex_last l : ~ In 37 l -> expanded (37 :: l) (37 :: l).

(** The token a line holds. *)
Definition holds (line t : text) : Prop := exists l, trimmed line l /\ one_token l /\ expanded (word l) t /\ t <> [].

(** ** The previous directory: "-", "cd -", "cd /d -", "chdir -", ... *)
Variable alias : text -> bool.
Inductive dash (only : bool) : text -> Prop :=
| d_bare b1 b2 : only = false -> blanks b1 -> blanks b2 -> dash only (b1 ++ 45 :: b2)
| d_cd b1 cmd b2 sw b3 b4 n : blanks b1 -> blanks b2 -> blanks b3 -> blanks b4 -> In n [tx "cd"; tx "chdir"] -> same_letters cmd n ->
    (only = true -> alias n = false) ->
    (sw = [] /\ b2 = [] \/ same_letters sw (tx "/d")) -> b3 <> [] ->
    dash only (b1 ++ cmd ++ b2 ++ sw ++ b3 ++ 45 :: b4).

(** ** Directories *)
Definition sepc (c : N) : Prop := c = 47 \/ c = 92.
Inductive dots : text -> nat -> Prop :=
| dots_bare n : dots (repeat 46 n) n
| dots_sep n s : sepc s -> dots (repeat 46 n ++ [s]) n.
Inductive ups_text : text -> Prop :=
| up_one : ups_text [46; 46]
| up_more s t : sepc s -> ups_text t -> ups_text (46 :: 46 :: s :: t).
Inductive ended : text -> text -> Prop :=
| e_home : ended [126] [126]
| e_sep t s : sepc s -> ended (t ++ [s]) (t ++ [s])
| e_ups t : ups_text t -> ended t (t ++ [92]).
End Env.

(** ** The command *)
Definition letter (c : N) : Prop := 65 <= c <= 90 \/ 97 <= c <= 122.
Inductive on_drive : text -> N -> Prop :=
| od_plain c r : letter c -> on_drive (c :: 58 :: r) c
| od_long s1 s2 s3 s c r : sepc s1 -> sepc s2 -> sepc s3 -> Forall sepc s -> letter c -> on_drive (s1 :: s2 :: 63 :: s3 :: s ++ c :: 58 :: r) c.
Definition quoted (d : text) : text := 34 :: d ++ [34].
(** To change to [dir], the drive is changed first if need be. *)
Inductive cd_command (cwd dir : text) : text -> Prop :=
| cc_same : (forall c, on_drive dir c -> exists c', on_drive cwd c' /\ lowerN c' = lowerN c) -> cd_command cwd dir (tx " cd " ++ quoted dir)
| cc_drive c : on_drive dir c -> (forall c', on_drive cwd c' -> lowerN c' <> lowerN c) -> cd_command cwd dir (32 :: c :: tx ": & cd " ++ quoted dir).

(** ** All of it *)
Section Answer.
Variable env : text -> option text.
Variable alias : text -> bool.
Variable walpha : N -> bool.
Variable before : N.
Variable is_dir remote : text -> bool.
Variable cwd : text.
Variable no_remote_cwd : bool.
Definition home : text := match env (tx "HOME") with Some h => h | None => [] end.
(** "~" and "~\..." stand for the home directory; the path is normalised then (C28). *)
Definition tilde (t r : text) : Prop := t = 126 :: r /\ match r with [] => True | c :: _ => sepc c end.
Inductive at_home : text -> text -> Prop :=
| h_no t : (forall r, ~ tilde t r) -> at_home t t
| h_yes t r d : tilde t r -> normalise walpha (Some before) (append walpha home (skip_sep r)) 92 = Some d -> at_home t d.
(** Remote directories are not looked at in the mode [no_remote], if named with their drive or if so configured. *)
Definition passed_over (m : mode) (d : text) : Prop :=
  m = no_remote /\ remote d = true /\ (no_remote_cwd = true \/ exists a r, past_ssqs d = a :: 58 :: r).
Definition backslashes (t : text) : text := map (fun c => if (c =? 47) || (c =? 92) then 92 else c) t.
Definition only (m : mode) : bool := match m with only_cd_chdir => true | _ => false end.
Fixpoint up (n : nat) : text := match n with O => [] | S k => 46 :: 46 :: 92 :: up k end.
Inductive answer (line : text) (m : mode) : result -> Prop :=
| a_dash : dash alias (only m) line -> answer line m prev_dir
| a_dots t n cmd : ~ dash alias (only m) line -> m <> only_cd_chdir -> holds env line t -> dots t n -> (2 <= n)%nat ->
    cd_command cwd (up (n - 1)) cmd -> answer line m (chdir cmd)
| a_dir t t' d cmd : ~ dash alias (only m) line -> m <> only_cd_chdir -> holds env line t -> (forall n, dots t n -> (n < 2)%nat) ->
    ended t t' -> at_home t' d -> ~ passed_over m d -> is_dir d = true -> cd_command cwd (backslashes d) cmd -> answer line m (chdir cmd).
End Answer.
