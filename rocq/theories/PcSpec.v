(** What the codes in a prompt are to mean. *)
From Verif Require Import Base.
From Verif Require Export PcModel.
From Coq Require Import Ascii String.
Open Scope N_scope.
Open Scope list_scope.

Definition str (s : string) : text := map N_of_ascii (list_ascii_of_string s).
(** ** A prompt is made of characters and codes *)
Inductive token := Char (c : N) | Code (c : N).
Definition good_token (t : token) : Prop := match t with Char c => c <> 36 | Code _ => True end.
Definition token_text (t : token) : text := match t with Char c => [c] | Code c => [36; c] end.
Definition prompt_text (l : list token) : text := List.concat (map token_text l).
(** the codes that stand for text, as documented for PROMPT: one letter, in upper or lower case *)
Definition documented (sys : system) : list (string * text) :=
  [("Aa", str "&"); ("Bb", str "|"); ("Cc", str "("); ("Dd", y_date sys); ("Ee", [27]); ("Ff", str ")"); ("Gg", str ">"); ("Ll", str "<");
   ("Nn", firstn 1 (y_cwd sys)); ("Pp", y_cwd sys); ("Qq", str "="); ("Ss", str " "); ("Tt", y_time sys); ("Vv", y_version sys); ("_", [13; 10]); ("$", str "$");
   ("+", repeat 43 (y_depth sys));
   ("Mm", if y_ext sys then match y_cwd sys, y_net sys with [], _ => [] | _, None => str "Unknown " | _, Some [] => [] | _, Some t => (t ++ str " ")%list end else [])]%string.
Fixpoint value (table : list (string * text)) (c : N) : text := match table with [] => [] | (k, v) :: t => if existsb (fun x => x =? c) (str k) then v else value t c end.
Definition erases (t : token) : bool := match t with Code c => (c =? 72) || (c =? 104) | _ => false end.
Definition token_value (sys : system) (t : token) : text := match t with Char c => [c] | Code c => value (documented sys) c end.
(** read from the end: a code $H takes away the character before it *)
Fixpoint shown_rev (sys : system) (rev_tokens : list token) (taken : nat) : text :=
  match rev_tokens with
  | [] => []
  | t :: l => if erases t then shown_rev sys l (S taken)
              else let v := token_value sys t in shown_rev sys l (taken - List.length v) ++ firstn (List.length v - taken) v
  end.
Definition shown (sys : system) (l : list token) : text := shown_rev sys (rev l) 0.
Definition is_plus (t : token) : bool := match t with Code c => c =? 43 | _ => false end.
Definition pluses (l : list token) : nat := List.length (filter is_plus l).
(** what ends a prompt that has one line only *)
Definition ends_line (t : token) : bool := match t with Char c => (c =? 10) || (c =? 13) | Code c => c =? 95 end.
Fixpoint first_line (l : list token) : list token := match l with [] => [] | t :: l' => if ends_line t then [] else t :: first_line l' end.
Definition is_net (t : token) : bool := match t with Code c => (c =? 77) || (c =? 109) | _ => false end.
Definition ends_with_net (l : list token) : bool := match rev l with t :: _ => is_net t | [] => false end.
(** without spaces at the end *)
Definition no_spaces_at_end (t r : text) : Prop := exists k, t = r ++ repeat 32 k /\ forall r', r <> r' ++ [32].
(** text, written as codes where needed *)
Definition quoted (t : text) : text := flat_map (fun c => if existsb (fun x => x =? c) (str "&|()<>=$ ") then 36 :: value (map (fun p => (fst p, str (snd p))) [("&", "A"); ("|", "B"); ("(", "C"); (")", "F"); ("<", "L"); (">", "G"); ("=", "Q"); ("$", "$"); (" ", "S")]%string) c else [c]) t.
