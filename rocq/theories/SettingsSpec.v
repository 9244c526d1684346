(** Which names, values and comments a settings file can hold. *)
From Coq Require Export Sorted.
From Verif Require Import Base ColorModel ColorSpec SettingsModel.

Definition line_ok (t : bytes) : Prop := forall c, In c t -> c <> CR /\ c <> LF /\ c <> NUL.
Definition blank (c : byte) : Prop := In c [SPC; TAB; LF; ascii_of_nat 11; ascii_of_nat 12; CR].
(** One line, not starting with a blank. *)
Definition value_ok (t : bytes) : Prop := line_ok t /\ forall c r, t = c :: r -> ~ blank c.
(** One line without "=", not starting with "#", no blank at either end. *)
Definition name_ok (t : bytes) : Prop :=
  line_ok t /\ ~ In "="%char t /\ (forall c r, t = c :: r -> ~ blank c /\ c <> "#"%char) /\ (forall r c, t = r ++ [c] -> ~ blank c).
Definition unlines (ls : list bytes) : bytes := concat (map (fun l => l ++ [LF]) ls).
(** Lines starting with "#". *)
Definition comment_ok (t : bytes) : Prop :=
  exists ls, t = unlines ls /\ Forall (fun l => line_ok l /\ exists r, l = "#"%char :: r) ls.

(** Names of options, the comparison being [same]: one can be told from another, and from a number. *)
Definition options_ok (same : bytes -> bytes -> bool) (o : bytes) : Prop :=
  line_ok o /\
  (forall i n, nth_error (options_of o) i = Some n ->
     value_ok n /\ n <> [] /\ forallb is_digit n = false /\ same n n = true) /\
  (forall i j n m, i < j -> nth_error (options_of o) i = Some n -> nth_error (options_of o) j = Some m -> same n m = false).

(** A colour given in words, or as numbers (each below 2^31) not starting with 0. *)
Definition color_ok (c : bytes) : Prop :=
  c = [] \/ (exists t, ~ raw t /\ parse_color t = Some c) \/
  (exists n ns, sgr_numbers c (n :: ns) /\ Forall (fun n => (n < 2147483648)%N) (n :: ns) /\ n <> 0%N).

(** The values of each type. *)
Definition value_of (k : kind) (v : val) : Prop :=
  match k, v with
  | KBool, VBool _ => True
  | KInt, VInt z => (-2147483648 <= z <= 2147483647)%Z
  | KEnum o, VInt z => (0 <= z < Z.of_nat (length (options_of o)))%Z
  | KStr, VStr s => value_ok s
  | KColor, VStr c => color_ok c
  | _, _ => False
  end.

(** What a setting is declared with. *)
Record declared (same : bytes -> bytes -> bool) (s : setting) : Prop := mkdecl {
  d_name : name_ok (s_name s);
  d_nonempty : s_name s <> [];
  d_len : length (s_name s) <= 32;
  d_desc : line_ok (s_desc s);
  d_options : match s_kind s with KEnum o => options_ok same o | _ => True end;
  d_default : match s_kind s, s_default s with
              | KColor, VStr d => exists c, parse_color d = Some c /\ color_ok c
              | k, v => value_of k v
              end;
  d_auto : iequal (s_name s) (lit "clink.autoupdate") = false \/ s_kind s = KEnum (lit "off,check,prompt,auto") }.

(** Names that differ only in the case of letters. *)
Definition alike (a b : bytes) : Prop := map lower_case a = map lower_case b.

(** A set of settings. *)
Definition registry (same : bytes -> bytes -> bool) (reg : list setting) : Prop :=
  Forall (declared same) reg /\ ForallOrdPairs (fun a b => ~ alike (s_name a) (s_name b)) reg.

(** An entry of the file for a setting that is not (or was not yet) declared. *)
Record entry_ok (x : loaded) : Prop := mkentry {
  e_name : name_ok (l_name x);
  e_value : value_ok (l_value x);
  e_comment : comment_ok (l_comment x);
  e_auto : migrate (l_name x) (l_value x) = l_value x }.

Definition value_of0 (k : kind) (v : val) : Prop :=
  match k, v with KColor, VStr _ => True | _, _ => value_of k v end.

(** What holds of the settings at all times (see SettingsProperties.v: load establishes it, the operations keep it). *)
Record settled (same : bytes -> bytes -> bool) (st : store) : Prop := mksettled {
  ok_reg : registry same (st_reg st);
  ok_vals : Forall (fun s => value_of0 (s_kind s) (s_val s)) (st_reg st);
  ok_save : Forall (fun s => s_save s = false -> reset same (custom_of (st_custom st)) s = s) (st_reg st);
  ok_custom : Forall (fun x => value_ok (l_value x)) (st_custom st);
  ok_sorted : StronglySorted (fun a b => ltb_bytes (l_name a) (l_name b) = true) (st_loaded st);
  ok_entries : Forall entry_ok (st_loaded st);
  ok_unknown : Forall (fun x => In (l_name x) (map s_name (st_reg st)) \/ findable (st_reg st) (l_name x) = None) (st_loaded st) }.

(** Every color can be written. *)
Definition colors_ok (reg : list setting) : Prop :=
  Forall (fun s => s_kind s = KColor -> value_of KColor (s_val s)) reg.

(** What another session has in common: everything but the values. *)
Definition declaration (s : setting) : bytes * bytes * kind * val := (s_name s, s_desc s, s_kind s, s_default s).

(** The entries of undeclared settings. *)
Definition kept (st : store) : list loaded :=
  filter (fun x => negb (l_saved x) && negb (existsb (fun s => eqb_bytes (s_name s) (l_name x)) (st_reg st))) (st_loaded st).

(** No entry of the file could be taken for [s] without having exactly its name (names are looked up ignoring the case of
    letters, and by their first 32 bytes). *)
Definition taken_for (n : bytes) (s : setting) : Prop :=
  alike (s_name s) n \/ (32 < length n /\ alike (s_name s) (firstn 32 n)).
Definition new_setting (st : store) (s : setting) : Prop :=
  Forall (fun x => ~ alike (s_name x) (s_name s)) (st_reg st) /\
  Forall (fun x => l_name x = s_name s \/ ~ taken_for (l_name x) s) (st_loaded st).
(** No declared setting has that name. *)
Definition undeclared (reg : list setting) (n : bytes) : Prop := Forall (fun s => ~ taken_for n s) reg.

(** The states of a session in which the custom defaults are those of the file [d]: settings were loaded from any file, then
    set, cleared, declared, removed and saved in any order. *)
Inductive session (same : bytes -> bytes -> bool) (d : option bytes) : store -> Prop :=
| s_load st f : registry same (st_reg st) -> session same d (load same st d f)
| s_set st n t : session same d st -> value_ok t -> (undeclared (st_reg st) n -> name_ok n /\ ~ alike n (lit "clink.autoupdate")) ->
    session same d (fst (set_setting same st n t None))
| s_clear st n : session same d st -> session same d (clear_setting same st n)
| s_define st s : session same d st -> declared same s -> new_setting st s -> session same d (define same st s)
| s_undefine st n : session same d st -> session same d (undefine st n)
| s_saved st f st' : session same d st -> save st = Some (f, st') -> session same d st'.
