(** Model of the directory shortcuts (clink/lib/src/intercept.cpp), with os::expand_env (clink/core/src/os.cpp 828-894) and
    path::tilde_expand, path::get_drive (clink/core/src/path.cpp 305-322, 414-463).  A text is the list of its bytes without the
    NUL at its end, and holds no other NUL.  expand_env steps through UTF-8 with str_iter; here it steps through bytes, which is
    the same for well formed UTF-8 since only '%' is looked for. *)
From Verif Require Import Base CmpModel PathModel.
Local Open Scope N_scope.

Definition text := list N.
Definition tx (s : string) : text := map N_of_ascii (list_ascii_of_string s).
Definition blank (c : N) : bool := (c =? 32) || (c =? 9).
Fixpoint skip_blanks (l : text) : text := match l with c :: r => if blank c then skip_blanks r else l | [] => [] end.
Definition eqt (a b : text) : bool := if list_eq_dec N.eq_dec a b then true else false.
(** _stricmp in the C locale *)
Definition lowerN (c : N) : N := if (65 <=? c) && (c <=? 90) then c + 32 else c.
Definition iequals (a b : text) : bool := eqt (map lowerN a) (map lowerN b).
Definition has (c : N) (l : text) : bool := existsb (N.eqb c) l.

(** ** parse_line_token (intercept.cpp 17-117) *)
Definition commands : list text := map tx ["call"; "cd"; "chdir"; "dir"; "echo"; "md"; "mkdir"; "popd"; "pushd"]%string.
Definition refused (c : N) : bool := has c (tx "<|>").
Definition acceptable_quoted (c : N) : bool := has c (tx "@()&+=;,").
Definition ends_component (c : N) : bool := (c =? 46) || (c =? 47) || (c =? 92).
(** The loop (28-116): None: refused; else the token and [expand]. *)
Fixpoint token (first quoted expand : bool) (out l : text) : option (text * bool) :=
  match l with
  | [] => Some (out, expand)
  | c :: r =>
      if blank c && negb quoted then match skip_blanks l with [] => Some (out, expand) | _ => None end
      else if refused c then None
      else if acceptable_quoted c && negb quoted then None
      else if c =? 34 then token false (negb quoted) expand out r
      else if c =? 94 then
        if negb quoted && match r with [] => false | _ => true end then token false quoted expand out r else token false quoted expand (out ++ [c]) r
      else if c =? 37 then token false quoted true (out ++ [c]) r
      else if ends_component c then
        if first && existsb (iequals out) commands then None else token false quoted expand (out ++ [c]) r
      else token first quoted expand (out ++ [c]) r
  end.

Section Env.
Variable env : text -> option text.        (* os::get_env *)
(** os::expand_env (828-894): the text, and whether something was expanded. *)
Fixpoint until_percent (l : text) : text * text := (* before the next percent sign, and from there on *)
  match l with
  | [] => ([], [])
  | c :: r => if c =? 37 then ([], l) else let '(a, b) := until_percent r in (c :: a, b)
  end.
Fixpoint expand (fuel : nat) (l : text) : option (text * bool) :=
  match fuel with
  | O => None
  | S k =>
      match l with
      | [] => Some ([], false)
      | _ =>
          let '(a, b) := until_percent l in
          match b with
          | [] => Some (a, false)
          | p :: b =>
              let '(var, c) := until_percent b in
              match c with
              | q :: c' =>
                  match var with
                  | [] => match expand k c with Some (o, e) => Some (a ++ p :: o, e) | None => None end
                  | _ => match env var with
                         | Some v => match expand k c' with Some (o, _) => Some (a ++ v ++ o, true) | None => None end
                         | None => match expand k c' with Some (o, e) => Some (a ++ (p :: var ++ [q]) ++ o, e) | None => None end
                         end
                  end
              | [] => Some (a ++ p :: var, false)
              end
          end
      end
  end.
Definition expand_env (l : text) : option (text * bool) := expand (S (length l)) l.

Definition parse_line_token (line : text) : option (option text) :=
  match token true false false [] (skip_blanks line) with
  | None => Some None
  | Some (out, e) =>
      match (if e then match expand_env out with Some (t, true) => Some t | Some (_, false) => Some out | None => None end else Some out) with
      | None => None
      | Some [] => Some None
      | Some out => Some (Some out)
      end
  end.

(** ** parse_cd_chdir_command (120-166): the line from where it was left, and the command *)
Definition prefixi (p l : text) : bool := iequals (firstn (length p) l) p.
Definition parse_cd (line : text) : text * option text :=
  let line := skip_blanks line in
  let go (scan cmd : text) :=
    let have := match scan with c :: _ => blank c | [] => false end in
    let scan := skip_blanks scan in
    let '(scan, have) := if prefixi (tx "/d") scan
      then let scan := skipn 2 scan in (skip_blanks scan, match scan with c :: _ => blank c | [] => false end) else (scan, have) in
    if have then (scan, Some cmd) else (line, None) in
  if prefixi (tx "cd") line then go (skipn 2 line) (tx "cd")
  else if prefixi (tx "chdir") line then go (skipn 5 line) (tx "chdir")
  else (line, None).
Variable alias : text -> bool.             (* os::get_alias succeeds *)
(** is_cd_dash (169-188) *)
Definition is_cd_dash (only : bool) (line : text) : bool :=
  let '(rest, cmd) := parse_cd line in
  if only && match cmd with None => true | Some c => alias c end then false
  else match rest with
       | c :: r => (c =? 45) && match skip_blanks r with [] => true | _ => false end
       | [] => false
       end.

(** ** intercept_directory (191-281) *)
Inductive mode := normal | only_cd_chdir | no_remote.
Inductive result := none | prev_dir | chdir (command : text).
Variable walpha : N -> bool.
Variable before : N.                       (* the byte before the buffer (see C28) *)
Variable is_dir remote : text -> bool.     (* os::get_path_type = path_type_dir, os::is_remote *)
Variable cwd : text.                       (* os::get_current_dir *)
(** 209-219: the number of dots if it is all dots, perhaps with one separator behind. *)
Fixpoint count_dots (l : text) : option nat :=
  match l with
  | [] => Some O
  | c :: r => if c =? 46 then option_map S (count_dots r) else if is_separator c && match r with [] => true | _ => false end then Some O else None
  end.
Fixpoint ups (n : nat) : text := match n with O => [] | S k => tx "..\" ++ ups k end.
(** 236-249 *)
Fixpoint only_ups (fuel : nat) (p : text) : bool :=
  match fuel with
  | O => false
  | S k => match p with
           | a :: b :: r => (a =? 46) && (b =? 46) && match r with [] => true | c :: r => is_separator c && only_ups k r end
           | _ => false
           end
  end.
(** path::tilde_expand (path.cpp 414-463) *)
Definition tilde_expand (t : text) : option text :=
  match t with
  | c :: r =>
      if (c =? 126) && match r with [] => true | d :: _ => is_separator d end
      then let out := match env (tx "HOME") with Some h => h | None => [] end in
           normalise walpha (Some before) (append walpha out (skip_sep r)) 92
      else Some t
  | [] => Some t
  end.
(** path::get_drive (path.cpp 305-322) *)
Definition get_drive (p : text) : option text :=
  match past_ssqs p with
  | c :: d :: _ => if (d =? 58) && (97 <=? lowerN c) && (lowerN c <=? 122) then Some [c; 58] else None
  | _ => None
  end.
(** make_cd_command (283-302) *)
Definition make_cd_command (dir : text) : text :=
  let plain := tx " cd """ ++ dir ++ tx """" in
  match get_drive dir with
  | Some drive =>
      let cwd_drive := match get_drive cwd with Some d => d | None => [] end in
      if iequals drive cwd_drive then plain else tx " " ++ drive ++ tx " & cd """ ++ dir ++ tx """"
  | None => plain
  end.
(** atoi of CLINK_NO_REMOTE_COLORING > 0 is the variable [no_remote_cwd]. *)
Variable no_remote_cwd : bool.
Definition intercept_directory (line : text) (m : mode) : option result :=
  if is_cd_dash (match m with only_cd_chdir => true | _ => false end) line then Some prev_dir
  else match m with only_cd_chdir => Some none | _ =>
    match parse_line_token line with
    | None => None
    | Some None => Some none
    | Some (Some t) =>
        let dots := match count_dots t with Some n => (2 <=? n)%nat | None => false end in
        let t := if dots then match count_dots t with Some n => ups (n - 1) | None => t end else t in
        let ended := if negb (eqt t (tx "~")) && negb (is_separator (last t 0))
                     then if only_ups (length t) t then Some (t ++ tx "\") else None else Some t in
        match ended with
        | None => Some none
        | Some t =>
            match tilde_expand t with
            | None => None
            | Some t =>
                let skip := match m with
                            | no_remote => remote t && ((match past_ssqs t with _ :: d :: _ => d =? 58 | _ => false end) || no_remote_cwd)
                            | _ => false end in
                if negb dots && (skip || negb (is_dir t)) then Some none
                else Some (chdir (make_cd_command (normalise_separators t 92)))
            end
        end
    end end.
End Env.
