(** Model of os::disambiguate_abbreviated_path (clink/core/src/os.cpp 1633-1875) and os.expandabbreviatedpath
    (clink/lua/src/os_api.cpp 2843-2862).  Text is a list of characters: the conversions between UTF-8 and UTF-16, and
    counting bytes, are left out (they are C20-C22). *)
From Verif Require Import Base.
Open Scope N_scope.

Definition text := list N.
(** path::is_separator, clink/core/src/path.cpp 254-261 *)
Definition is_sep (c : N) : bool := (c =? 47) || (c =? 92).
Definition is_quote (c : N) : bool := c =? 34.
(** concat_strip_quotes, clink/core/include/core/str.h 753-785 *)
Definition strip_quotes (l : text) : text := filter (fun c => negb (is_quote c)) l.
Fixpoint span (p : N -> bool) (l : text) : text * text := match l with c :: l' => if p c then let '(a, b) := span p l' in (c :: a, b) else ([], l) | [] => ([], []) end.
Fixpoint is_prefix (a b : text) : bool := match a, b with [], _ => true | x :: a', y :: b' => (x =? y) && is_prefix a' b' | _, _ => false end.
(** the position of the last separator, 1643-1651 *)
Fixpoint last_sep (l : text) : option nat := match l with [] => None | c :: l' => match last_sep l' with Some n => Some (S n) | None => if is_sep c then Some O else None end end.

(** WIN32_FIND_DATAW: cFileName, cAlternateFileName (empty if there is none), whether it is a directory *)
Record entry := mkE { e_name : text; e_short : text; e_dir : bool }.
Section Os.
(** what a directory contains, in the order of the file system; the directory is given as what comes before the name in a path *)
Variable ls : text -> list entry.
(** characters that are the same for the file system and wcsicmp; those that are the same for str_compare in its current mode *)
Variable same : N -> N -> bool.
Variable cmp : N -> N -> bool.
(** path::is_unc or path::is_incomplete_unc; path::past_ssqs; a drive that is remote or invalid *)
Variable is_unc : text -> bool.
Variable past_ssqs : text -> nat.
Variable bad_drive : N -> bool.

Fixpoint begins (n t : text) : bool := match n, t with [], _ => true | x :: n', y :: t' => same x y && begins n' t' | _, _ => false end.
(** wcsicmp *)
Definition iequals (a b : text) : bool := Nat.eqb (length a) (length b) && begins b a.
(** str_compare with compute_lcd: how much the two have in common *)
Fixpoint lcd (a b : text) : nat := match a, b with x :: a', y :: b' => if cmp x y then S (lcd a' b') else O | _, _ => O end.
(** FindFirstFileW and FindNextFileW of name*, where name has no wildcards: both names are tried *)
Definition found (dir name : text) : list entry := filter (fun e => begins name (e_name e) || (match e_short e with [] => false | s => begins name s end)) (ls dir).
(** path::get_drive, path.cpp 305-322 *)
Definition get_drive (l : text) : option N := match l with c :: 58 :: _ => if ((65 <=? c) && (c <=? 90)) || ((97 <=? c) && (c <=? 122)) then Some c else None | _ => None end.

(** "." and "..", 1743-1760: the comparisons are with the whole pattern and always fail *)
Definition skip_dots (l : list entry) : list entry := match l with e :: l' => match e_name e with [46] => match l' with _ :: l'' => l'' | [] => [] end | _ => l end | [] => [] end.
(** 1762-1766 and 1790-1794: the first directory, and what comes after it *)
Fixpoint first_dir (l : list entry) : option (entry * list entry) := match l with [] => None | e :: l' => if e_dir e then Some (e, l') else first_dir l' end.
(** 1784-1788 and 1803-1812: the first name that begins with the text as typed, directory or not *)
Definition best_of (name : text) (l : list entry) : option text := match find (fun e => is_prefix name (e_name e)) l with Some e => Some (e_name e) | None => None end.
(** 1738-1828: what the name becomes and whether that is unique; None: not found *)
Definition expand_name (l : list entry) (name : text) : option (text * bool) :=
  match first_dir (skip_dots l) with
  | None => None
  | Some (e, l') =>
      let wadd := e_name e in
      if iequals wadd name then Some (match wadd with [] => name | _ => wadd end, true)
      else
        let best := if is_prefix name wadd then Some wadd else None in
        let '(unique, wadd, best) :=
          match first_dir l' with
          | None => (true, wadd, best)
          | Some (e2, l'') => (false, firstn (lcd wadd (e_name e2)) wadd, match best with Some b => Some b | None => best_of name (e2 :: l'') end)
          end in
        let wadd := match best with Some b => firstn (lcd b wadd) b | None => wadd end in
        Some (match wadd with [] => name | _ => wadd end, unique)
  end.
(** the loop, 1696-1854: [l] is what is not parsed yet of the part up to the last separator; [n]: how much was parsed *)
Fixpoint loop (fuel : nat) (l : text) (out : text) (n : nat) (unique : bool) : option (text * nat * bool) :=
  match fuel with
  | O => None
  | S fuel' =>
      match l with
      | [] => Some (out, n, unique)
      | _ =>
          let '(seps, l1) := span is_sep l in
          let '(name, l2) := span (fun c => negb (is_sep c)) l1 in
          let n := (n + length seps + length name)%nat in
          match name with
          | [] => Some (out ++ [last seps 0], n, unique)
          | _ =>
              let base := out ++ firstn 1 seps in
              match expand_name (found base name) name with
              | None => None
              | Some (t, true) => loop fuel' l2 (base ++ t) n true
              | Some (t, false) => Some (base ++ t, n, false)
              end
          end
      end
  end.
(** the result: nothing (out is empty), or the expanded part, the rest of the input and whether it is unique *)
Inductive result := Nil | Expanded (out rest : text) (unique : bool).
Definition expand (input : text) : result :=
  let tmp := strip_quotes input in
  match last_sep tmp with
  | None | Some O => Nil
  | Some len =>
      if is_unc tmp then Nil
      else
        let k := past_ssqs tmp in
        let drive := get_drive (skipn k tmp) in
        if match drive with Some c => bad_drive c | None => false end then Nil
        else
          let parse := firstn k tmp ++ match drive with Some c => [c; 58] | None => [] end in
          if (len <=? length parse)%nat then Nil
          else
            match loop (S len) (skipn (length parse) (firstn len tmp)) parse (length parse) false with
            | None => Nil
            | Some (out, n, unique) =>
                if unique && is_prefix out tmp then Nil
                else
                  let rest := skipn n input in
                  Expanded out (if is_sep (last out 0) then snd (span is_sep rest) else rest) unique
            end
  end.
End Os.
