(** Model of the settings store (clink/core/src/settings.cpp and clink/core/include/core/settings.h).
    Texts are C strings without their NUL; isspace and the caseless comparisons are those of the C locale on ASCII, bytes from
    128 on being neither blank nor letters. *)
From Verif Require Import Base ColorModel.

Definition is_space (c : byte) : bool := let n := N_of_ascii c in ((n =? 32) || (9 <=? n) && (n <=? 13))%N.
Fixpoint skip_space (l : bytes) : bytes := match l with c :: r => if is_space c then skip_space r else l | [] => [] end.
Definition rtrim (l : bytes) : bytes := rev (skip_space (rev l)).

(** str_base::trim (clink/core/include/core/str.h 283-313) *)
Fixpoint drop_in (set : bytes) (l : bytes) : bytes :=
  match l with c :: r => if existsb (Ascii.eqb c) set then drop_in set r else l | [] => [] end.
Definition str_trim (l : bytes) : bytes := drop_in [SPC; TAB] (rev (drop_in [SPC; TAB; CR; LF] (rev l))).

(** atoi (with the documented saturation of the Microsoft runtime). *)
Definition clamp (z : Z) : Z := Z.max (-2147483648) (Z.min 2147483647 z).
Fixpoint leading_digits (l : bytes) : bytes := match l with c :: r => if is_digit c then c :: leading_digits r else [] | [] => [] end.
Definition atoi (l : bytes) : Z :=
  let l := skip_space l in
  match l with
  | c :: r =>
      if Ascii.eqb c "-" then clamp (- Z.of_N (undec 0 (leading_digits r)))
      else if Ascii.eqb c "+" then clamp (Z.of_N (undec 0 (leading_digits r)))
      else clamp (Z.of_N (undec 0 (leading_digits l)))
  | [] => 0%Z
  end.
(** "%d" *)
Definition dec_z (z : Z) : bytes := if (z <? 0)%Z then "-"%char :: dec (Z.to_N (- z)) else dec (Z.to_N z).

(** ** Types and values *)
Inductive kind := KBool | KInt | KEnum (options : bytes) | KStr | KColor.
Inductive val := VBool (b : bool) | VInt (z : Z) | VStr (s : bytes).

(** The options as delimited by next_option (1562-1569) in setting_enum::parse (1481-1508): after a last comma, that comma
    belongs to the option. *)
Fixpoint options_from (l cur : bytes) : list bytes :=
  match l with
  | [] => flush cur
  | c :: r => if Ascii.eqb c ","
              then match r with [] => [cur ++ [c]] | _ => cur :: options_from r [] end
              else options_from r (cur ++ [c])
  end.
Definition options_of (options : bytes) : list bytes := options_from options [].

Section Same.
(** str_compare(oi, vi) < 0 in caseless mode (1493-1496; see CmpModel): any function here. *)
Variable same : bytes -> bytes -> bool.

(** The loop of setting_enum::parse (1481-1508). *)
Fixpoint enum_loop (os : list bytes) (value : bytes) (by_int i : Z) : option Z :=
  match os with
  | [] => None
  | o :: r => if (by_int =? 0)%Z || same o value then Some i else enum_loop r value (by_int - 1) (i + 1)
  end.
(** parse (1341-1387, 1467-1511, 1588-1591) *)
Definition parse_val (k : kind) (value : bytes) : option val :=
  match k with
  | KBool =>
      let v := str_trim value in
      if iequal v (lit "true") then Some (VBool true) else if iequal v (lit "false") then Some (VBool false)
      else if iequal v (lit "on") then Some (VBool true) else if iequal v (lit "off") then Some (VBool false)
      else if iequal v (lit "yes") then Some (VBool true) else if iequal v (lit "no") then Some (VBool false)
      else match v with c :: _ => if is_digit c then Some (VBool (negb (atoi v =? 0)%Z)) else None | [] => None end
  | KInt => match value with
            | c :: _ => if is_digit c || Ascii.eqb c "-" then Some (VInt (atoi value)) else None
            | [] => None
            end
  | KEnum options =>
      let by_int := match value with
                    | c :: _ => if is_digit c then (if forallb is_digit value then atoi value else (-1)%Z) else (-1)%Z
                    | [] => (-1)%Z
                    end in
      option_map VInt (enum_loop (options_of options) value by_int 0)
  | KStr => Some (VStr value)
  | KColor => option_map VStr (parse_color value)
  end.

(** get_option_name (1540-1559) *)
Definition option_name (options : bytes) (index : Z) : bytes :=
  if (index <? 0)%Z then [] else nth (Z.to_nat index) (options_of options) [].
(** get and get_descriptive (1392-1407, 1514-1517, 1613-1618); None: undefined (see format_color). *)
Definition describe_val (k : kind) (v : val) (compat : bool) : option bytes :=
  match k, v with
  | KBool, VBool b => Some (if b then lit "True" else lit "False")
  | KInt, VInt z => Some (dec_z z)
  | KEnum options, VInt z => Some (option_name options z)
  | KStr, VStr s => Some s
  | KColor, VStr s => format_color compat s
  | _, _ => None
  end.
Definition get_val (k : kind) (v : val) : option bytes :=
  match k, v with KColor, VStr s => Some s | _, _ => describe_val k v true end.

(** ** Settings *)
Record setting := mkset { s_name : bytes; s_desc : bytes; s_kind : kind; s_default : val; s_val : val; s_save : bool }.
Definition with_val (s : setting) (v : val) (save : bool) : setting :=
  mkset (s_name s) (s_desc s) (s_kind s) (s_default s) v save.

Definition eqb_val (a b : val) : bool :=
  match a, b with
  | VBool x, VBool y => Bool.eqb x y
  | VInt x, VInt y => (x =? y)%Z
  | VStr x, VStr y => eqb_bytes x y
  | _, _ => false
  end.
(** is_default (settings.h 203-206, settings.cpp 1594-1601) *)
Definition is_default (s : setting) (v : val) : bool :=
  match s_kind s, s_default s, v with
  | KColor, VStr d, VStr x => match parse_color d with Some c => eqb_bytes c x | None => match x with [] => true | _ => false end end
  | _, d, _ => eqb_val v d
  end.
(** set() (settings.h 185-191, settings.cpp 1604-1610); [custom] is the custom default. *)
Definition reset_val (s : setting) (custom : option bytes) : val :=
  match match custom with Some t => parse_val (s_kind s) t | None => None end with
  | Some v => v
  | None => match s_kind s, s_default s with
            | KColor, VStr d => match parse_color d with Some c => VStr c | None => s_val s end
            | _, d => d
            end
  end.
Definition reset (custom : bytes -> option bytes) (s : setting) : setting :=
  let v := reset_val s (custom (s_name s)) in with_val s v (negb (is_default s v)).
(** set(value) (settings.h 194-200) *)
Definition set_text (s : setting) (t : bytes) : setting * bool :=
  match parse_val (s_kind s) t with Some v => (with_val s v true, true) | None => (s, false) end.

(** ** Reading a file *)
(** str_tokeniser with "\n\r" *)
Fixpoint lines_from (l cur : bytes) : list bytes :=
  match l with
  | [] => flush cur
  | c :: r => if Ascii.eqb c LF || Ascii.eqb c CR then flush cur ++ lines_from r [] else lines_from r (cur ++ [c])
  end.
Definition lines_of (l : bytes) : list bytes := lines_from l [].
(** strchr: what is before and after the first [d]. *)
Fixpoint split_at (d : byte) (l : bytes) : option (bytes * bytes) :=
  match l with
  | [] => None
  | c :: r => if Ascii.eqb c d then Some ([], r)
              else match split_at d r with Some (a, b) => Some (c :: a, b) | None => None end
  end.
Fixpoint until_nul (l : bytes) : bytes := match l with c :: r => if Ascii.eqb c NUL then [] else c :: until_nul r | [] => [] end.
(** maybe_clink_set (112-127) *)
Definition clink_set_format (ls : list bytes) : bool :=
  forallb (fun l => negb (match l with c :: _ => Ascii.eqb c "#" | [] => true end) && match split_at "=" l with None => true | Some _ => false end) ls.
(** The clink.autoupdate migration (185-194). *)
Definition migrate (name value : bytes) : bytes :=
  if iequal name (lit "clink.autoupdate") then
    let t := str_trim value in
    if iequal t (lit "false") || iequal t (lit "off") || iequal t (lit "no") then lit "0"
    else if iequal t (lit "true") || iequal t (lit "on") || iequal t (lit "yes") then lit "1"
    else value
  else value.
(** An assignment: what load_setting is called with (196): name, value, comment. *)
Record assign := mkas { as_name : bytes; as_value : bytes; as_comment : bytes }.
(** The loop (130-197). *)
Fixpoint load_lines (clink_set : bool) (ls : list bytes) (was_comment : bool) (comment : bytes) : list assign :=
  match ls with
  | [] => []
  | l :: r =>
      let comment := if was_comment then comment else [] in
      let d := skip_space l in
      if match d with c :: _ => Ascii.eqb c "#" | [] => false end
      then load_lines clink_set r true (comment ++ d ++ [LF])
      else
        match match split_at "=" d with Some kv => Some kv | None => if clink_set then split_at SPC d else None end with
        | None => load_lines clink_set r false comment
        | Some (k, v) =>
            let name := rtrim k in
            mkas name (migrate name (skip_space v)) comment :: load_lines clink_set r false comment
        end
  end.
(** load_internal (89-200) *)
Definition read_file (content : bytes) : list assign :=
  let ls := lines_of (until_nul content) in load_lines (clink_set_format ls) ls false [].

(** ** The store *)
(** loaded_settings_map: ordered by name (std::map), emplace keeps what is there. *)
Record loaded := mkld { l_name : bytes; l_value : bytes; l_comment : bytes; l_saved : bool }.
Fixpoint ltb_bytes (a b : bytes) : bool :=
  match a, b with
  | _, [] => false
  | [], _ :: _ => true
  | x :: a', y :: b' => if Ascii.eqb x y then ltb_bytes a' b' else (N_of_ascii x <? N_of_ascii y)%N
  end.
Fixpoint emplace (e : loaded) (m : list loaded) : list loaded :=
  match m with
  | [] => [e]
  | x :: r => if eqb_bytes (l_name e) (l_name x) then m
              else if ltb_bytes (l_name e) (l_name x) then e :: m else x :: emplace e r
  end.
Definition loaded_find (name : bytes) (m : list loaded) : option loaded := find (fun x => eqb_bytes (l_name x) name) m.

Record store := mkst { st_reg : list setting; st_loaded : list loaded; st_custom : list loaded }.
Definition custom_of (m : list loaded) (name : bytes) : option bytes := option_map l_value (loaded_find name m).

(** settings::find (338-353); str<33,false> names have at most 32 bytes.  Here only whether [s] is the setting found. *)
Definition named (name : bytes) (s : setting) : bool := iequal (s_name s) name.
Definition findable (reg : list setting) (name : bytes) : option bytes :=
  if existsb (named name) reg then Some name
  else if Nat.ltb 32 (length name) && existsb (named (firstn 32 name)) reg then Some (firstn 32 name) else None.

(** Changing the setting found: the first (and only) one of that name. *)
Fixpoint update (name : bytes) (f : setting -> setting) (reg : list setting) : list setting :=
  match reg with [] => [] | s :: r => if named name s then f s :: r else s :: update name f r end.

(** set_setting (356-383); [comment] None: nullptr. *)
Definition set_setting (st : store) (name value : bytes) (comment : option bytes) : store * bool :=
  match findable (st_reg st) name with
  | None =>
      let c := match comment with
               | Some c => c
               | None => match loaded_find name (st_loaded st) with Some l => l_comment l | None => [] end
               end in
      (mkst (st_reg st) (emplace (mkld name value c false) (st_loaded st)) (st_custom st), true)
  | Some n => (mkst (update n (fun s => fst (set_text s value)) (st_reg st)) (st_loaded st) (st_custom st),
               match find (named n) (st_reg st) with Some s => snd (set_text s value) | None => false end)
  end.
(** clear_setting (386-401) *)
Definition clear_setting (st : store) (name : bytes) : store :=
  match findable (st_reg st) name with
  | None => mkst (st_reg st) (filter (fun x => negb (eqb_bytes (l_name x) name)) (st_loaded st)) (st_custom st)
  | Some n => mkst (update n (reset (custom_of (st_custom st))) (st_reg st)) (st_loaded st) (st_custom st)
  end.

(** load_custom_defaults (304-324); the second fclose is not modelled. *)
Definition load_custom (content : option bytes) : list loaded :=
  match content with
  | None => []
  | Some c => fold_left (fun m a => emplace (mkld (as_name a) (as_value a) [] false) m) (read_file c) []
  end.
(** load (522-596), when no file of the old format is there to migrate. *)
Definition load (st : store) (defaults file : option bytes) : store :=
  let custom := load_custom defaults in
  let st0 := mkst (map (reset (custom_of custom)) (st_reg st)) [] custom in
  match file with
  | None => st0
  | Some c => fold_left (fun st a => fst (set_setting st (as_name a) (as_value a) (Some (as_comment a)))) (read_file c) st0
  end.

(** ** Writing the file *)
Definition type_name (k : kind) : bytes :=
  match k with KBool => lit "boolean" | KInt => lit "integer" | KEnum _ => lit "enum" | KStr => lit "string" | KColor => lit "color" end.
(** One setting (630-656); None: undefined. *)
Definition write_setting (s : setting) : option bytes :=
  match describe_val (s_kind s) (s_val s) true with
  | None => None
  | Some v =>
      Some (lit "# name: " ++ s_desc s ++ [LF] ++ lit "# type: " ++ type_name (s_kind s) ++ [LF] ++
            (match s_kind s with KEnum o => lit "# options: " ++ o ++ [LF] | _ => [] end) ++
            s_name s ++ lit " = " ++ v ++ [LF; LF])
  end.
Fixpoint write_settings (reg : list setting) : option bytes :=
  match reg with
  | [] => Some []
  | s :: r => if s_save s
              then match write_setting s, write_settings r with Some a, Some b => Some (a ++ b) | _, _ => None end
              else write_settings r
  end.
(** 622-624, for all settings: the flags are never cleared, as the loop at 615-616 works on copies. *)
Definition mark (reg : list setting) (x : loaded) : loaded :=
  if existsb (fun s => eqb_bytes (s_name s) (l_name x)) reg then mkld (l_name x) (l_value x) (l_comment x) true else x.
Definition write_extra (x : loaded) : bytes := l_comment x ++ l_name x ++ lit " = " ++ l_value x ++ [LF; LF].
(** Text mode. *)
Definition crlf (l : bytes) : bytes := flat_map (fun c => if Ascii.eqb c LF then [CR; LF] else [c]) l.
(** save_internal (599-676) when the file can be opened: the file's new content and the store after. *)
Definition save (st : store) : option (bytes * store) :=
  match write_settings (st_reg st) with
  | None => None
  | Some a =>
      let m := map (mark (st_reg st)) (st_loaded st) in
      let extra := filter (fun x => negb (l_saved x)) m in
      Some (crlf (a ++ (match extra with [] => [] | _ => [LF; LF] end) ++ flat_map write_extra extra),
            mkst (st_reg st) m (st_custom st))
  end.

(** Registering a setting (1257-1272) whose name is not yet there, and deferred_load (settings.h 227-232).  The place in the
    map is not modelled (it is put last). *)
Definition define (st : store) (s : setting) : store :=
  let s0 := reset (custom_of (st_custom st)) s in
  let s1 := match loaded_find (s_name s) (st_loaded st) with Some l => fst (set_text s0 (l_value l)) | None => s0 end in
  mkst (st_reg st ++ [s1]) (st_loaded st) (st_custom st).
(** Unregistering (1275-1281). *)
Definition undefine (st : store) (name : bytes) : store :=
  mkst (filter (fun s => negb (named name s)) (st_reg st)) (st_loaded st) (st_custom st).

(** rollback_settings_values (735-760): the values as texts, and setting them again. *)
Definition rollback (old : list setting) (reg : list setting) : list setting :=
  map (fun s => match find (fun o => eqb_bytes (s_name o) (s_name s)) old with
                | Some o => match get_val (s_kind o) (s_val o) with Some t => fst (set_text s t) | None => s end
                | None => s
                end) reg.
(** sandboxed_set_setting (763-779): the file's new content (None: not written) and the store after. *)
Definition sandboxed_set (st : store) (defaults file : option bytes) (name value : bytes) : option bytes * store * bool :=
  let st1 := load (mkst (st_reg st) [] (st_custom st)) defaults file in
  let (st2, ok) := set_setting st1 name value None in
  let back (x : store) := mkst (rollback (st_reg st) (st_reg x)) (st_loaded st) (st_custom x) in
  if ok then match save st2 with Some (f, st3) => (Some f, back st3, true) | None => (None, back st2, false) end
  else (None, back st2, false).
End Same.
