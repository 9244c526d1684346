(** Model of the match list: matches_impl (clink/lib/src/matches_impl.cpp, matches_impl.h) and match_pipeline
    (clink/lib/src/match_pipeline.cpp).  A text is the list of its bytes; memory suffices.  Of a match only the text, the type,
    the ordinal and the selection mark are kept apart; display, description and the append settings are the one value [extra],
    which is carried along.  rl_backslash_path_sep is set, so both slashes separate. *)
From Coq Require Export Permutation Sorted.
From Verif Require Import Base CmpModel PathModel.
Local Open Scope N_scope.

Notation text := (list N).
(** match_type (clink/lib/include/lib/matches.h 16-38) *)
Definition T_NONE : N := 1.
Definition T_WORD : N := 2.
Definition T_ARG : N := 3.
Definition T_CMD : N := 4.
Definition T_ALIAS : N := 5.
Definition T_FILE : N := 6.
Definition T_DIR : N := 7.
Definition base (t : N) : N := N.land t 7.
Definition is_type (t k : N) : bool := base t =? k.
Definition is_pathish (t : N) : bool := (base t =? T_FILE) || (base t =? T_DIR).
Definition is_hidden (t : N) : bool := N.testbit t 6.
Definition is_system (t : N) : bool := N.testbit t 8.
Definition from_history (t : N) : bool := N.testbit t 15.

Fixpoint same_text (a b : text) : bool :=
  match a, b with [], [] => true | x :: a, y :: b => (x =? y) && same_text a b | _, _ => false end.

Record info := mki { match_ : text; type_ : N; ordinal : N; extra : N; select : bool }.
(** shadow_bool (matches.h 108-135): the explicit value, the implicit value *)
Definition shadow : Type := option bool * bool.
Definition sget (s : shadow) : bool := match fst s with Some b => b | None => snd s end.
Record state := mks {
  infos : list info;
  count : N;                          (* unsigned short *)
  dedup : option (list (text * N));   (* None: a null pointer *)
  any_none : bool; deprecated : bool; coalesced : bool; nosort : bool;
  fcd : shadow;                       (* m_filename_completion_desired *)
  sep : N; mode : N                   (* m_sep, get_slash_translation() *)
}.
Definition short (n : N) : N := n mod 65536.
(** reset (926-954) *)
Definition start (mode sep : N) : state := mks [] 0 None false false false false (None, false) sep mode.

(** match_lookup_comparator (69-79) *)
Definition same_lookup (a b : text * N) : bool :=
  ((snd a =? snd b) || from_history (N.lor (snd a) (snd b))) && same_text (fst a) (fst b).
Definition found (x : text * N) (d : option (list (text * N))) : bool :=
  match d with Some l => existsb (same_lookup x) l | None => false end.

(** rl_last_path_separator (readline/readline/util.c 85-97) is at the end *)
Definition ends_with_sep (s : text) : bool := match s with [] => false | _ => is_separator (last s 0) end.
(** do_slash_translation (slash_translation.cpp 26-56) *)
Definition translated (s : state) (t : text) : text :=
  normalise_separators t (match mode s with 2 => 47 | 3 => 92 | 4 => if sep s =? 0 then 92 else sep s | _ => 92 end).

Section Ml.
Variable walpha : N -> bool.

(** add_match (1145-1253); [norm]: already_normalized. *)
Definition add_text (s : state) (m : text) (t : N) (norm : bool) : text * N :=
  let ends := ends_with_sep m in
  let t := if ends && is_type t T_NONE && negb (from_history t) then N.lor (N.ldiff t 7) T_DIR else t in
  let translate := (0 <? mode s) && ((1 <? mode s) || negb norm) &&
                   (is_type t T_DIR || is_type t T_FILE || (is_type t T_NONE && sget (fcd s) && from_history t)) in
  let m := if is_type t T_DIR && negb ends then append walpha m [] else m in
  (if translate then translated s m else m, t).
Definition add_match (s : state) (m : text) (t : N) (x : N) (norm : bool) : state :=
  if coalesced s then s
  else match m with
       | [] => s
       | _ =>
           let '(m, t) := add_text s m t norm in
           if found (m, t) (dedup s) then mks (infos s) (count s) (Some (match dedup s with Some l => l | None => [] end)) (any_none s) (deprecated s) (coalesced s) (nosort s) (fcd s) (sep s) (mode s)
           else mks (infos s ++ [mki m t (N.of_nat (length (infos s))) x false]) (short (count s + 1))
                    (Some ((m, t) :: match dedup s with Some l => l | None => [] end))
                    (any_none s || is_type t T_NONE) (deprecated s) (coalesced s) (nosort s) (fcd s) (sep s) (mode s)
       end.

(** backcompat_match_type (130-138) and to_match_type (84-127); [attrs] is the file system: None: no such file. *)
Record attr := mka { a_dir : bool; a_hidden : bool; a_system : bool; a_readonly : bool; a_link : bool; a_orphaned : bool }.
Variable attrs : text -> option attr.
Definition kind (m : text) : N :=
  match attrs m with
  | None => T_FILE
  | Some a =>
      let t := if a_dir a then T_DIR else T_FILE in
      let t := if a_hidden a then N.lor t 64 else t in
      let t := if a_system a then N.lor t 256 else t in
      let t := if a_readonly a then N.lor t 128 else t in
      if a_link a then N.lor (if a_orphaned a then N.lor t 32 else t) 16 else t
  end.
(** done_building (1262-1317).  The entries below [i] are visited from the last to the first.  None: a null pointer (m_dedup) is
    used, or an entry beyond the end. *)
Definition build_sep (s : state) : N := match mode s with 2 => 47 | 3 => 92 | 4 => sep s | _ => 92 end.
Definition remove_lookup (x : text * N) (l : list (text * N)) : list (text * N) := filter (fun y => negb (same_lookup x y)) l.
(** The byte [c] put on the NUL of [t]; a NUL leaves it as it is. *)
Definition put_end (t : text) (c : N) : text := if c =? 0 then t else t ++ [c].
Fixpoint retype (i : nat) (c : N) (l : list info) (d : option (list (text * N))) : option (list info * option (list (text * N))) :=
  match i with
  | O => Some (l, d)
  | S i =>
      match nth_error l i with
      | None => None
      | Some e =>
          if is_type (type_ e) T_NONE && negb (from_history (type_ e)) then
            match d with
            | None => None
            | Some set =>
                let set := remove_lookup (match_ e, type_ e) set in
                let t := kind (match_ e) in
                let m := if is_type t T_DIR then put_end (match_ e) c else match_ e in
                if existsb (same_lookup (m, t)) set then retype i c (firstn i l ++ skipn (S i) l) (Some set)
                else retype i c (firstn i l ++ mki m t (ordinal e) (extra e) (select e) :: skipn (S i) l) (Some ((m, t) :: set))
            end
          else retype i c l d
      end
  end.
Definition retypes (s : state) : bool :=
  any_none s && (if deprecated s then sget (fcd s) && match fst (fcd s) with Some _ => true | None => false end
                 else sget (fcd s) || match fst (fcd s) with Some _ => false | None => true end).
Definition done_building (s : state) : option state :=
  match (if retypes s then retype (N.to_nat (count s)) (build_sep s) (infos s) (dedup s) else Some (infos s, dedup s)) with
  | None => None
  | Some (l, _) => Some (mks l (count s) None (any_none s) (deprecated s) (coalesced s) (nosort s) (fcd s) (sep s) (mode s))
  end.

(** coalesce (1320-1355): the loop at [i] with [j] entries in front; both are indices into [l]. *)
Fixpoint set_nth {A} (i : nat) (x : A) (l : list A) : list A :=
  match l, i with [], _ => [] | _ :: r, O => x :: r | y :: r, S i => y :: set_nth i x r end.
Definition swap {A} (i j : nat) (l : list A) : list A :=
  match nth_error l i, nth_error l j with Some a, Some b => set_nth i b (set_nth j a l) | _, _ => l end.
Fixpoint gather (fuel i j hint : nat) (l : list info) (any all : bool) : list info * nat * bool * bool :=
  match fuel with
  | O => (l, j, any, all)
  | S fuel =>
      if Nat.ltb j hint then
        match nth_error l i with
        | None => (l, j, any, all)
        | Some e =>
            if select e then
              gather fuel (S i) (S j) hint (if Nat.eqb i j then l else swap i j l) (any || is_pathish (type_ e)) (all && is_pathish (type_ e))
            else gather fuel (S i) j hint l any all
        end
      else (l, j, any, all)
  end.
Definition coalesce (s : state) (hint : nat) (restrict : bool) : state :=
  let '(l, j, any, all) := gather (length (infos s)) 0 0 hint (infos s) false true in
  mks (if restrict then firstn j l else l) (short (N.of_nat j)) (dedup s) (any_none s) (deprecated s) true (nosort s) (fst (fcd s), any) (sep s) (mode s).

(** ** Selectors (match_pipeline.cpp 67-167) *)
Record config := mkc { match_hidden : bool; files_hidden : bool; files_system : bool; wild_setting : bool; substring : bool; dot_prefix : bool }.
Variable begins : text -> text -> bool.                       (* str_compare(needle, name) reaches the end of the needle (C25) *)
Variable wild : text -> text -> bool -> bool -> bool.         (* match_wild of pattern and name; dot_prefix, whether a star matches everything (C26) *)
(** is_unix_hidden (path.cpp 539-559) with ignore_trailing_separators *)
Definition unix_hidden (m : text) : bool :=
  let d := past_drive walpha m in
  let n := strip_down d 0 (length d) in
  at_ d (nonsep_down d n) =? 46.
(** 67-74 *)
Definition included (c : config) (t : N) : bool :=
  if is_system t then files_system c else if is_hidden t then match_hidden c && files_hidden c else true.
Definition include_hidden (c : config) (needle : text) : bool := match_hidden c || (hd 0 (get_name walpha needle) =? 46).
Definition prefix_pick (c : config) (needle : text) (e : info) : bool :=
  begins needle (match_ e) && (include_hidden c needle || negb (unix_hidden (match_ e))) && included c (type_ e).
Definition strip_seps (m : text) : text := firstn (strip_down m 0 (length m)) m.
Definition pattern_pick (c : config) (pattern : text) (e : info) : bool :=
  (include_hidden c pattern || negb (unix_hidden (match_ e))) && included c (type_ e) &&
  wild pattern (strip_seps (match_ e)) (dot_prefix c) (negb (is_pathish (type_ e))).
Definition mark (pick : info -> bool) (l : list info) : list info :=
  map (fun e => mki (match_ e) (type_ e) (ordinal e) (extra e) (pick e)) l.
(** can_try_substring_pattern (matches_impl.cpp 1358-1379); [plain_wild]: no ? and no * outside the run at the end *)
Fixpoint tame (p : text) : bool :=
  match p with
  | [] => true
  | c :: r => negb ((c =? 63) || ((c =? 42) && negb (match r with [] => true | d :: _ => d =? 42 end))) && tame r
  end.
Definition can_try (c : config) (p : text) : bool :=
  match p with
  | [] => false
  | x :: _ => negb ((x =? 126) || (x =? 42)) && substring c && (wild_setting c || tame p)
  end.
(** make_substring_pattern (1382-1405) *)
Fixpoint after_sep (p : text) (i : nat) (n : nat) : nat :=
  match p with [] => n | c :: r => after_sep r (S i) (if is_separator c then S i else n) end.
Definition sub_pattern (p app : text) : text :=
  let k := after_sep p 0 0 in firstn k p ++ [42] ++ skipn k p ++ app.
Definition selected (first second : info -> bool) (second_allowed : bool) (l : list info) : list info :=
  let l1 := mark first l in
  if negb (existsb select l1) && second_allowed then mark second l1 else l1.
Definition select_matches (c : config) (needle : text) (l : list info) : list info :=
  selected (if dot_prefix c || wild_setting c then pattern_pick c (needle ++ [42]) else prefix_pick c needle)
           (pattern_pick c (sub_pattern needle [42])) (can_try c needle) l.

Definition with_infos (s : state) (l : list info) : state :=
  mks l (count s) (dedup s) (any_none s) (deprecated s) (coalesced s) (nosort s) (fcd s) (sep s) (mode s).
(** select (478-512), restrict (400-433 and 450-475); the needle after tilde expansion *)
Definition do_select (c : config) (needle : text) (s : state) : state :=
  coalesce (with_infos s (select_matches c needle (infos s))) (length (infos s)) false.
Definition do_restrict (c : config) (pattern : text) (s : state) : state :=
  coalesce (with_infos s (selected (pattern_pick c pattern) (pattern_pick c (sub_pattern pattern [])) (can_try c pattern) (infos s)))
           (length (infos s)) true.
Definition do_keep (keep : list text) (s : state) : state :=
  let l := mark (fun e => existsb (same_text (match_ e)) keep) (infos s) in
  coalesce (with_infos s l) (length (filter select l)) true.
(** Trimming the needle (436-446), on well formed text *)
Fixpoint trim_wild (p : text) : text :=
  match p with [] => [] | c :: r => if (c =? 42) || (c =? 63) then [] else c :: trim_wild r end.

(** ** Sorting (170-294) *)
(** CompareStringW minus CSTR_EQUAL, ignoring case or not; on the bytes, so to_utf16 is part of it. *)
Variable compare : bool -> text -> text -> Z.
Definition dir_match (m : text) (t : N) : bool :=
  if is_type t T_DIR then true
  else if negb (is_type t T_NONE) || from_history t then false
  else ends_with_sep m.
Fixpoint minuses (m : text) : N := match m with c :: r => if c =? 45 then 1 + minuses r else 0 | [] => 0 end.
Definition b2z (b : bool) : Z := if b then 1%Z else 0%Z.
(** The first difference decides *)
Fixpoint decide (l : list Z) : bool := match l with [] => false | c :: r => if (c =? 0)%Z then decide r else (c <? 0)%Z end.
Definition sort_worker (order : N) (l : text) (lt : N) (r : text) (rt : N) : bool :=
  let ld := dir_match l lt in
  let rd := dir_match r rt in
  if negb (order =? 1) && negb (Bool.eqb ld rd) then (if order =? 0 then ld else rd)
  else
    let l := if ld then maybe_strip_last_separator walpha l else l in
    let r := if rd then maybe_strip_last_separator walpha r else r in
    decide ([if (hd 0 l =? 45) || (hd 0 r =? 45) then (Z.of_N (minuses l) - Z.of_N (minuses r))%Z else 0%Z;
             compare true l r; compare false l r] ++
            map (fun k => (b2z (base lt =? k)%N - b2z (base rt =? k)%N)%Z) [T_DIR; T_ALIAS; T_CMD; T_WORD; T_ARG; T_FILE]).
Definition less (order : N) (nosort : bool) (a b : info) : bool :=
  if nosort then ordinal a <? ordinal b else sort_worker order (match_ a) (type_ a) (match_ b) (type_ b).
(** std::sort on the first [count] entries: any arrangement of them with none before a lesser one. *)
Definition in_order (lt : info -> info -> bool) : list info -> Prop := StronglySorted (fun a b => lt b a = false).
Definition sorts (order : N) (s s' : state) : Prop :=
  let k := N.to_nat (count s) in
  exists l, Permutation (firstn k (infos s)) l /\ in_order (less order (nosort s)) l /\ s' = with_infos s (l ++ skipn k (infos s)).
(** What the list shows: get_match (664-670).  None: beyond the entries. *)
Definition get_match (s : state) (i : N) : option (option info) :=
  if i <? count s then match nth_error (infos s) (N.to_nat i) with Some e => Some (Some e) | None => None end else Some None.
Definition shown (s : state) : list info := firstn (N.to_nat (count s)) (infos s).
End Ml.
