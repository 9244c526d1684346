(** Model of path::match_wild_impl (clink/core/include/core/match_wild.h 51-208).

    Pattern and file name are lists of characters: what the str_iter's peek/next yield on well formed text (C21,
    CmpProperties.read_wf); a pointer into them is the remaining list, 0 the character seen at the end.
    start_of_path_component is initialised with true and never set to false (66, 84, 152), so it is left out.
    CharLowerW is the variable [lower]. *)
From Verif Require Import Base CmpModel.

Definition QM : N := 63.
Definition STAR : N := 42.
Definition DOT : N := 46.

Inductive everything := EvNo | EvYes | EvAtEnd.      (** star_matches_everything (16) *)

Section Wild.
Variable lower : N -> N.
Variable mode : nat.
Variable fuzzy : bool.

(** match_char_impl (20-48). *)
Definition match_char (pc fc : N) : bool :=
  let pc := fold_char lower mode false pc in
  let fc := fold_char lower mode false fc in
  if (pc =? fc)%N then true
  else if negb fuzzy then false
  else (normalize_accent pc =? normalize_accent fc)%N.

Definition peek (l : list N) : N := hd 0%N l.

(** while (c == '*' || c == '?') pattern.next() (104-108). *)
Fixpoint skip_wild (p : list N) : list N :=
  match p with
  | c :: p' => if ((c =? STAR) || (c =? QM))%N then skip_wild p' else p
  | [] => []
  end.

(** The scouting loop (116-122). *)
Fixpoint scout (me : everything) (c : N) (f : list N) : list N :=
  match f with
  | [] => []
  | d :: f' =>
      if match me with EvYes => true | _ => negb (is_separator d) end && negb (match_char d c)
      then scout me c f' else f
  end.

Fixpoint drop_seps (l : list N) : list N :=
  match l with
  | c :: l' => if is_separator c then drop_seps l' else l
  | [] => []
  end.

Fixpoint drop_dots (l : list N) : list N :=
  match l with
  | c :: l' => if (c =? DOT)%N then drop_dots l' else l
  | [] => []
  end.

(** final_pattern_component, has_final_wildcard, final_file_component (155-174), as the length of what remains there. *)
Fixpoint last_component (l cur : list N) : list N :=
  match l with
  | [] => cur
  | c :: l' => last_component l' (if is_separator c then l' else cur)
  end.
Fixpoint final_wildcard (l : list N) (b : bool) : bool :=
  match l with
  | [] => b
  | c :: l' => final_wildcard l' (if is_separator c then false else if ((c =? QM) || (c =? STAR))%N then true else b)
  end.

Inductive outcome := Ret (b : bool) | Cont (p f : list N) (stack : list (list N * list N)).

(** back_track (77-87). *)
Definition back_track (stack : list (list N * list N)) : outcome :=
  match stack with
  | [] => Ret false
  | (p, f) :: st => Cont p f st
  end.

(** One round of the loop (68-206). *)
Definition wild_step (p0 f0 : list N) (dot_prefix : bool) (me : everything)
    (p f : list N) (stack : list (list N * list N)) : outcome :=
  let c := peek p in
  let d := peek f in
  if (c =? 0)%N then (if (d =? 0)%N then Ret true else back_track stack)
  else if (c =? QM)%N then
    if is_separator d then back_track stack
    else Cont (tl p) (if (d =? 0)%N then f else tl f) stack
  else if (c =? STAR)%N then
    let p1 := skip_wild p in
    let c1 := peek p1 in
    if (c1 =? 0)%N && match me with EvNo => false | _ => true end then Ret true
    else
      let f1 := scout me c1 f in
      let d1 := peek f1 in
      if negb (match_char d1 c1) then back_track stack
      else if match me with EvYes => false | _ => true end && is_separator d1
      then Cont (tl p1) (tl f1) []
      else if Nat.eqb (length stack) 10 then Ret false
      else Cont (tl p1) (tl f1) ((p, tl f1) :: stack)
  else if (d =? 0)%N then back_track stack
  else
    let f1 :=
      if negb (is_separator d) && dot_prefix && (d =? DOT)%N && final_wildcard p0 false &&
         Nat.eqb (length f) (length (last_component f0 f0)) && Nat.eqb (length p) (length (last_component p0 p0)) &&
         negb (c =? DOT)%N
      then drop_dots f else f in
    if negb (match_char (peek f1) c) then back_track stack
    else if is_separator c then Cont (drop_seps (tl p)) (drop_seps (tl f1)) stack
    else Cont (tl p) (tl f1) stack.

(** None: out of fuel. *)
Fixpoint wild_run (fuel : nat) (p0 f0 : list N) (dot_prefix : bool) (me : everything)
    (p f : list N) (stack : list (list N * list N)) : option bool :=
  match fuel with
  | O => None
  | S k => match wild_step p0 f0 dot_prefix me p f stack with
           | Ret b => Some b
           | Cont p' f' st => wild_run k p0 f0 dot_prefix me p' f' st
           end
  end.

Definition match_wild (fuel : nat) (pattern file : list N) (dot_prefix : bool) (me : everything) : option bool :=
  wild_run fuel pattern file dot_prefix me pattern file [].
End Wild.
