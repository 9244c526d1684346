(** Model of clink/app/src/loader/autorun.cpp: editing the commands cmd.exe runs when it starts.  Texts are bytes without NUL,
    well formed UTF-8 (so the conversions to and from UTF-16 keep them); isspace is that of the C locale; registry and memory
    operations succeed; a value is below 62 KiB (str_base has 16 bits for its size). *)
From Verif Require Import Base.

Definition QUOTE : byte := """".
Definition BSL : byte := "\".
Definition is_space (c : byte) : bool := let n := N_of_ascii c in ((n =? 32) || (9 <=? n) && (n <=? 13))%N.

(** The needles (237-248) *)
Definition needles : list bytes :=
  [lit "clink inject"; lit "clink"" inject"; lit "clink_x64.exe inject"; lit "clink_x86.exe inject"; lit "clink_arm64.exe inject";
   lit "clink_x64.exe"" inject"; lit "clink_x86.exe"" inject"; lit "clink_arm64.exe"" inject"; lit "clink.bat inject"; lit "clink.bat"" inject"].

(** strstr *)
Fixpoint starts (n l : bytes) : bool :=
  match n, l with [], _ => true | x :: n', y :: l' => Ascii.eqb x y && starts n' l' | _ :: _, [] => false end.
Fixpoint strstr (n l : bytes) : option nat :=
  if starts n l then Some 0 else match l with [] => None | _ :: r => option_map S (strstr n r) end.
(** 250-264: the place found, and [quoted]: whether the needle has a space in it. *)
Fixpoint find_tag (ns : list bytes) (value : bytes) : option (nat * bool) :=
  match ns with
  | [] => None
  | n :: r => match strstr n value with Some t => Some (t, existsb (Ascii.eqb SPC) n) | None => find_tag r value end
  end.
Fixpoint index_of (c : byte) (l : bytes) : nat := match l with [] => 0 | x :: r => if Ascii.eqb x c then 0 else S (index_of c r) end.
Definition at_ (l : bytes) (i : nat) : byte := nth i l NUL.

(** The leftmost extent (296-316): [c] is the position. *)
Fixpoint scan_left (value : bytes) (c : nat) (quoted : bool) : nat :=
  match c with
  | 0 => 0
  | S c' =>
      if quoted then scan_left value c' (negb (Ascii.eqb (at_ value c) QUOTE))
      else if Ascii.eqb (at_ value c) "&" then (if Ascii.eqb (at_ value c') "&" then c' else c)
      else scan_left value c' false
  end.
(** 278-282: the beginning of the entry's path. *)
Fixpoint path_start (value : bytes) (c : nat) (i : byte) : nat :=
  match c with 0 => 0 | S c' => if Ascii.eqb (at_ value c') i then c else path_start value c' i end.

Section Users.
(** 284-293: whether two paths are the same but for case, separators and a last separator. *)
Variable same_path : bytes -> bytes -> bool.

(** find_clink_entry (229-319); [this_only] is g_enum_users && !g_all_users. *)
Definition find_entry (this_only : bool) (clink_path value : bytes) : option (nat * nat) :=
  match find_tag needles value with
  | None => None
  | Some (tag, quoted) =>
      let right := tag + index_of "&" (skipn tag value) in
      let s := path_start value tag (if quoted then QUOTE else SPC) in
      if this_only && negb (same_path (firstn (tag - s) (skipn s value)) clink_path) then None
      else Some (scan_left value tag quoted, right)
  end.

(** get_cmd_start (322-330) *)
Fixpoint cmd_start (l : bytes) : bytes := match l with c :: r => if is_space c || Ascii.eqb c "&" then cmd_start r else l | [] => [] end.
(** The copy loop (353-362): [i] counts. *)
Fixpoint copy_except (left right i : nat) (l : bytes) : bytes :=
  match l with [] => [] | c :: r => if Nat.ltb i left || Nat.leb right i then c :: copy_except left right (S i) r else copy_except left right (S i) r end.
(** uninstall_autorun_from_key (333-379): the value of AutoRun before and after, None: there is none. *)
Definition uninstall (this_only : bool) (clink_path : bytes) (v : option bytes) : option bytes :=
  match v with
  | None => None
  | Some t =>
      match find_entry this_only clink_path t with
      | None => v
      | Some (l, r) => match cmd_start (copy_except l r 0 t) with [] => None | x => Some x end
      end
  end.
(** install_autorun (421-464) *)
Definition install (clink_path args : bytes) (v : option bytes) : option bytes :=
  let v := match uninstall false clink_path v with Some t => t | None => [] end in
  let text := (match v with [] => [] | _ => v ++ ["&"%char] end) ++ QUOTE :: clink_path ++ lit "\clink.bat"" inject --autorun" ++
              (match args with [] => [] | _ => SPC :: args end) in
  Some (cmd_start (firstn (length v + 2047) text)).
End Users.

(** safe_append_quoted (553-595): None: refused. *)
Fixpoint trailing (l : bytes) : nat := match l with [] => 0 | c :: r => if Ascii.eqb c BSL then S (trailing r) else 0 end.
Definition has (c : byte) (l : bytes) : bool := existsb (Ascii.eqb c) l.
Definition append_quoted (s a : bytes) : option bytes :=
  let space := has SPC a in
  let q := index_of QUOTE a in
  if (space || has "/" a || has BSL a) && (has QUOTE a && Nat.ltb 0 q && Nat.eqb (S q) (length a)) then None
  else Some (if space then s ++ QUOTE :: a ++ repeat BSL (trailing (rev a)) ++ [QUOTE] else s ++ a).
(** 650-664: the rest of the command line *)
Fixpoint collect_args (s : bytes) (argv : list bytes) : option bytes :=
  match argv with
  | [] => Some s
  | a :: r => match append_quoted s a with
              | None => None
              | Some s' => collect_args (match r with [] => s' | _ => s' ++ [SPC] end) r
              end
  end.
