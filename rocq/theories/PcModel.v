(** Model of prompt_utils::expand_prompt_codes (clink/lua/src/prompt.cpp 531-677) and update_pushd_depth
    (clink/app/src/host/host_cmd.cpp 851-901).  Text is a list of characters without NUL: UTF-8 is left out (C20-C22). *)
From Verif Require Import Base.
Open Scope N_scope.

Definition text := list N.
(** what the codes show: the date, the time, the current directory, the version, what the drive is connected to (None: unknown;
    empty: it is a local drive), whether CMD has its extensions enabled, and how many directories were pushed *)
Record system := mkSys { y_date : text; y_time : text; y_cwd : text; y_version : text; y_net : option text; y_ext : bool; y_depth : nat }.
Record flags := mkF { f_single : bool; f_omit : bool }.
Record state := mkP { p_out : text; p_trim : bool; p_plus : nat }.

Definition upper (c : N) : N := if (97 <=? c) && (c <=? 122) then c - 32 else c.
(** "Unknown " *)
Definition unknown_net : text := [85; 110; 107; 110; 111; 119; 110; 32].
(** 563-659: None: the function returns false *)
Definition code (sys : system) (fl : flags) (c : N) (s : state) : option state :=
  let add t := Some (mkP (p_out s ++ t) (p_trim s) (p_plus s)) in
  let u := upper c in
  if u =? 65 then add [38] else if u =? 66 then add [124] else if u =? 67 then add [40] else if u =? 69 then add [27]
  else if u =? 70 then add [41] else if u =? 71 then add [62] else if u =? 76 then add [60] else if u =? 81 then add [61]
  else if u =? 83 then add [32] else if c =? 95 then add [13; 10] else if c =? 36 then add [36]
  else if u =? 68 then add (y_date sys)
  else if u =? 72 then Some (mkP (removelast (p_out s)) (p_trim s) (p_plus s))
  else if u =? 77 then
    Some (mkP (p_out s ++ (if y_ext sys then match y_cwd sys with [] => [] | _ => match y_net sys with None => unknown_net | Some [] => [] | Some t => t ++ [32] end end else [])) (f_single fl) (p_plus s))
  else if u =? 78 then add (firstn 1 (y_cwd sys))
  else if u =? 80 then add (y_cwd sys)
  else if u =? 84 then add (y_time sys)
  else if u =? 86 then add (y_version sys)
  else if c =? 43 then
    if f_omit fl then match p_plus s with O => Some (mkP (p_out s) (p_trim s) 1) | _ => None end
    else add (repeat 43 (y_depth sys))
  else Some s.
(** 543-660 *)
Fixpoint codes (sys : system) (fl : flags) (l : text) (s : state) : option state :=
  match l with
  | [] => Some s
  | c :: l' =>
      if f_single fl && ((c =? 13) || (c =? 10)) then Some s
      else
        let s := mkP (p_out s) false (p_plus s) in
        if negb (c =? 36) then codes sys fl l' (mkP (p_out s ++ [c]) false (p_plus s))
        else match l' with
             | [] => Some s
             | k :: l'' => if f_single fl && (k =? 95) then Some s else match code sys fl k s with Some s => codes sys fl l'' s | None => None end
             end
  end.
(** 662-674 *)
Fixpoint drop_spaces (l : text) : text := match l with c :: l' => if c =? 32 then drop_spaces l' else l | [] => [] end.
Definition trim_right (l : text) : text := rev (drop_spaces (rev l)).
Definition expand_codes (sys : system) (fl : flags) (l : text) : option text :=
  match l with
  | [] => None
  | _ => match codes sys fl l (mkP [] false 0) with None => None | Some s => Some (if p_trim s then trim_right (p_out s) else p_out s) end
  end.

(** ** update_pushd_depth *)
(** strstr(var, "$+") *)
Fixpoint has_plus (l : text) : bool := match l with c :: l' => match l' with k :: _ => ((c =? 36) && (k =? 43)) || has_plus l' | [] => false end | [] => false end.
(** 865-868 *)
Fixpoint skip_same (e c : text) : text * text := match e, c with x :: e', y :: c' => if x =? y then skip_same e' c' else (e, c) | _, _ => (e, c) end.
Fixpoint text_eqb (a b : text) : bool := match a, b with [], [] => true | x :: a', y :: b' => (x =? y) && text_eqb a' b' | _, _ => false end.
(** 862-896; None: the depth is not known (-1) *)
Definition compare_depth (expanded captured : text) : option nat :=
  if (length expanded <=? length captured)%nat then
    let '(e, c) := skip_same expanded captured in
    match e, c with
    | [], [] => Some O
    | _, 43 :: _ =>
        let d := (length c - length e)%nat in
        if text_eqb e (skipn d c) && forallb (fun x => x =? 43) (firstn d c) then Some d else None
    | _, _ => None
    end
  else None.
(** [prompt]: the environment variable, if it is set; [captured]: what CMD writes *)
Definition pushd_depth (sys : system) (prompt : option text) (captured : text) : option nat :=
  match prompt with
  | None => None
  | Some v => if has_plus v then match expand_codes sys (mkF false true) v with None => None | Some e => compare_depth e captured end else None
  end.
