(** clink/lib/src/match_colors.cpp: %CLINK_MATCH_COLORS% and match.coloring_rules, and the color of a match.

    Text is a list of code points (str_iter, C20).  malloc succeeds.  Debug assertions (the one in STATE_CARET always fails) are left out.  LS_COLORS
    (get_ls_color), used when there are no rules, is not modelled; nor is make_color, which puts the sequence between C_LEFT and C_RIGHT. *)
From Verif Require Import Base.
Open Scope N_scope.

Definition text := list N.

(** ** get_token, 244-449 *)
Inductive state := Text | Quote | Back | Oct (more : nat) (num : N) | Hex (more : nat) (num : N) | Caret.
(** to_utf8(token, &wc, 1): one UTF-16 unit, NUL ends the text, half a pair is U+FFFD *)
Definition unit_text (num : N) : text := let w := num mod 65536 in if w =? 0 then [] else if (55296 <=? w) && (w <? 57344) then [65533] else [w].
(** 341-351 *)
Definition escape (c : N) : N :=
  if c =? 97 then 7 else if c =? 98 then 8 else if c =? 101 then 27 else if c =? 102 then 12 else if c =? 110 then 10 else if c =? 114 then 13
  else if c =? 116 then 9 else if c =? 118 then 11 else if c =? 63 then 127 else if c =? 95 then 32 else c.
Definition hexval (c : N) : option N :=
  if (48 <=? c) && (c <=? 57) then Some (c - 48) else if (97 <=? c) && (c <=? 102) then Some (10 + (c - 97)) else if (65 <=? c) && (c <=? 70) then Some (10 + (c - 65)) else None.
Definition octval (c : N) : option N := if (48 <=? c) && (c <=? 55) then Some (c - 48) else None.
(** the delimiter found (0: the end, or ':'), the token, what follows, *quoted; or a syntax error *)
Inductive tk := Tok (ret : N) (tok rest : text) (quoted : bool) | Err.
Section Token.
Variables d1 d2 : N.
Variable verbatim : bool.
(** what is added for the character c, and for the number num that ends with (or before) it *)
Definition add (c : N) (tok : text) : text := if verbatim then tok ++ [c] else tok.
Definition add_num (c num : N) (tok : text) : text := tok ++ (if verbatim then [c] else unit_text num).
Definition add_num_before (num : N) (tok : text) : text := tok ++ (if verbatim then [] else unit_text num).
Fixpoint get_token (st : state) (l tok : text) (quoted : bool) : tk :=
  match l with
  | [] =>
      match st with
      | Text => Tok 0 tok [] quoted
      | Oct _ num | Hex _ num => Tok 0 (add_num_before num tok) [] quoted
      | Quote | Back | Caret => Err
      end
  | c :: l' =>
      let in_text (tok : text) :=
        if c =? 58 then Tok 0 tok l' quoted
        else if c =? 34 then get_token Quote l' (add c tok) true
        else if c =? 92 then get_token Back l' (add c tok) quoted
        else if c =? 94 then get_token Caret l' (add c tok) quoted
        else if (c =? d1) || (c =? d2) then Tok c tok l' quoted
        else get_token Text l' (tok ++ [c]) quoted in
      match st with
      | Text => in_text tok
      | Quote => if c =? 34 then get_token Text l' (add c tok) quoted else get_token Quote l' (tok ++ [c]) quoted
      | Back =>
          match octval c with
          | Some v => get_token (Oct 2 v) l' (add c tok) quoted
          | None =>
              if (c =? 120) || (c =? 88) then get_token (Hex 2 0) l' (add c tok) quoted
              else if (c =? 117) || (c =? 85) then get_token (Hex 4 0) l' (add c tok) quoted
              else get_token Text l' (add_num c (escape c) tok) quoted
          end
      | Oct more num =>
          match octval c with
          | Some v => let num := num * 8 + v in if (more <=? 1)%nat then get_token Text l' (add_num c num tok) quoted else get_token (Oct (more - 1) num) l' (add c tok) quoted
          | None => in_text (add_num_before num tok)
          end
      | Hex more num =>
          match hexval c with
          | Some v => let num := num * 16 + v in if (more <=? 1)%nat then get_token Text l' (add_num c num tok) quoted else get_token (Hex (more - 1) num) l' (add c tok) quoted
          | None => in_text (add_num_before num tok)
          end
      | Caret =>
          if (64 <=? c) && (c <=? 126) then get_token Text l' (add_num c (N.land c 31) tok) quoted
          else if c =? 63 then get_token Text l' (add_num c 127 tok) quoted
          else Err
      end
  end.
End Token.

(** str_impl::trim, core/str.h 283-320 *)
Definition right_space (c : N) : bool := (c =? 32) || (c =? 9) || (c =? 13) || (c =? 10).
Definition left_space (c : N) : bool := (c =? 32) || (c =? 9).
Fixpoint drop_while (f : N -> bool) (l : text) : text := match l with c :: l' => if f c then drop_while f l' else l | [] => [] end.
Definition trim (l : text) : text := drop_while left_space (rev (drop_while right_space (rev l))).
(** get_token_and_value, 452-473; None: error *)
Definition get_token_and_value (l : text) : option (text * text * text) :=
  match get_token 58 61 true Text l [] false with
  | Tok 61 token rest _ =>
      match get_token 58 0 false Text rest [] false with
      | Tok _ value rest _ => Some (trim token, value, rest)
      | Err => None
      end
  | _ => None
  end.

(** ** parse_rule, 476-579 *)
Inductive ind := Norm | File | Dir | Readonly | Hidden | Link | Exec | Missing | Orphan | Sock.
Definition ind_eqb (a b : ind) : bool :=
  match a, b with Norm, Norm | File, File | Dir, Dir | Readonly, Readonly | Hidden, Hidden | Link, Link | Exec, Exec | Missing, Missing | Orphan, Orphan | Sock, Sock => true | _, _ => false end.
Definition CFLAG_NORM := 1. Definition CFLAG_FILE := 2. Definition CFLAG_DIR := 4. Definition CFLAG_READONLY := 8. Definition CFLAG_HIDDEN := 16. Definition CFLAG_SYMLINK := 32. Definition CFLAG_EXEC := 64.
(** c_indicators, 145-161 *)
Definition c_indicators : list (text * ind * N) :=
  [([110; 111], Norm, CFLAG_NORM); ([102; 105], File, CFLAG_FILE); ([100; 105], Dir, CFLAG_DIR); ([114; 111], Readonly, CFLAG_READONLY); ([104; 105], Hidden, CFLAG_HIDDEN);
   ([108; 110], Link, CFLAG_SYMLINK); ([101; 120], Exec, CFLAG_EXEC); ([109; 105], Missing, 0); ([111; 114], Orphan, 0); ([115; 111], Sock, 0)].
Definition s_not : text := [110; 111; 116].
Definition s_any : text := [97; 110; 121].
(** stricmp *)
Definition lower (c : N) : N := if (65 <=? c) && (c <=? 90) then c + 32 else c.
Fixpoint eqt (a b : text) : bool := match a, b with [], [] => true | x :: a', y :: b' => (x =? y) && eqt a' b' | _, _ => false end.
Definition iequals (a b : text) : bool := eqt (map lower a) (map lower b).
Fixpoint find_ind (tok : text) (l : list (text * ind * N)) : option (ind * N) := match l with [] => None | (n, i, f) :: l' => if iequals tok n then Some (i, f) else find_ind tok l' end.
Record pat := mkPat { p_text : text; p_not : bool }.
(** the locals of parse_rule: num_flags, rlind, m_cflags, m_not_cflags, m_patterns, ever_any, not_operator *)
Record pr := mkPr { x_num : nat; x_ind : option ind; x_flags : N; x_not : N; x_pats : list pat; x_any : bool; x_neg : bool }.
Definition pr0 : pr := mkPr 0 None 0 0 [] false false.
(** the body of the loop, 490-541 *)
Definition on_token (tok : text) (quoted : bool) (x : pr) : pr :=
  match tok with
  | [] => x
  | _ =>
    if iequals tok s_not then mkPr (x_num x) (x_ind x) (x_flags x) (x_not x) (x_pats x) (x_any x) true
    else
      let '(x, found) :=
        if quoted then (x, false)
        else
          let '(x, found) :=
            match find_ind tok c_indicators with
            | Some (i, f) => (mkPr (x_num x + 1) (Some i) (if x_neg x then x_flags x else N.lor (x_flags x) f) (if x_neg x then N.lor (x_not x) f else x_not x) (x_pats x) (x_any x) (x_neg x), true)
            | None => (x, false)
            end in
          if iequals tok s_any then (mkPr 0 (x_ind x) 0 0 (x_pats x) true (x_neg x), true) else (x, found) in
      let pats := if found then x_pats x else x_pats x ++ [mkPat tok (x_neg x)] in
      mkPr (x_num x) (x_ind x) (x_flags x) (x_not x) pats (x_any x) false
  end.
Fixpoint rule_loop (fuel : nat) (l : text) (x : pr) : option pr :=
  match fuel with
  | O => None
  | S fuel' => match l with
               | [] => Some x
               | _ => match get_token 32 0 false Text l [] false with
                      | Err => None
                      | Tok _ tok rest quoted => rule_loop fuel' rest (on_token tok quoted x)
                      end
               end
  end.
Record rule := mkR { r_flags : N; r_not : N; r_pats : list pat; r_seq : text }.
(** what becomes of a rule: nothing, the color of an indicator, a rule *)
Inductive parsed := Nothing | Color (i : ind) | Rule (r : rule).
Definition parse_rule (l value : text) : parsed :=
  match rule_loop (S (length l)) l pr0 with
  | None => Nothing
  | Some x =>
      let none := match x_pats x with [] => true | _ => false end in
      let f := x_flags x in
      let f := if (f =? CFLAG_READONLY) && none && (x_num x =? 1)%nat then N.lor f CFLAG_FILE else f in
      let f := if negb none && (f =? 0) && (x_not x =? 0) && negb (x_any x) then N.lor f CFLAG_FILE else f in
      if negb (f =? 0) && (x_num x =? 1)%nat && (x_not x =? 0) && none then match x_ind x with Some i => Color i | None => Nothing end
      else if negb (f =? 0) || negb (x_not x =? 0) || negb none then Rule (mkR f (x_not x) (x_pats x) value)
      else Nothing
  end.

(** ** parse_match_colors, 618-747 *)
(** s_colors, s_color_rules, s_completion_prefix, s_colored_stats *)
Record mc := mkM { m_colors : ind -> option text; m_rules : list rule; m_prefix : text; m_stats : bool }.
Definition set_color (i : ind) (v : text) (f : ind -> option text) : ind -> option text := fun j => if ind_eqb i j then Some v else f j.
(** readline-colored-completion-prefix *)
Definition s_prefix : text := [114;101;97;100;108;105;110;101;45;99;111;108;111;114;101;100;45;99;111;109;112;108;101;116;105;111;110;45;112;114;101;102;105;120].
(** 711-736; [pre]: the value that overrides s_completion_prefix at the end *)
Fixpoint rules_loop (fuel : nat) (l : text) (m : mc) (pre : option text) : mc * option text :=
  match fuel with
  | O => (m, pre)
  | S fuel' =>
      match l with
      | [] => (m, pre)
      | _ =>
          match get_token_and_value l with
          | None => (m, pre)
          | Some ([], _, rest) => rules_loop fuel' rest m pre
          | Some (token, value, rest) =>
              if eqt token s_prefix then rules_loop fuel' rest (mkM (m_colors m) (m_rules m) (m_prefix m) true) (Some value)
              else
                match parse_rule token value with
                | Nothing => rules_loop fuel' rest m pre
                | Color i => rules_loop fuel' rest (mkM (set_color i value (m_colors m)) (m_rules m) (if ind_eqb i Sock then value else m_prefix m) true) pre
                | Rule r => rules_loop fuel' rest (mkM (m_colors m) (m_rules m ++ [r]) (m_prefix m) true) pre
                end
          end
      end
  end.
(** the colors there are without rules (_rl_color_indicator, readline/parse-colors.c 66-96): [ro], [hid] are _rl_readonly_color and _rl_hidden_color *)
Definition s_target : text := [116; 97; 114; 103; 101; 116].
Definition defaults (ro hid : option text) (i : ind) : option text :=
  match i with
  | Norm | File | Missing | Orphan => None
  | Dir => Some [48; 49; 59; 51; 51]
  | Link => Some s_target
  | Exec => Some [48; 49; 59; 51; 50]
  | Sock => Some [48; 49; 59; 51; 53]
  | Readonly => ro
  | Hidden => hid
  end.
Definition parse_match_colors (ro hid : option text) (prefix l : text) : mc :=
  let '(m, pre) := rules_loop (S (length l)) l (mkM (defaults ro hid) [] prefix false) None in
  mkM (m_colors m) (m_rules m) (match pre with Some v => v | None => m_prefix m end) (m_stats m).

(** ** get_match_color, 927-1161 *)
(** what stat says: nothing, a file (executable or not), a directory, a link (to what, if there is something), something else *)
Inductive mode := Reg (x : bool) | Folder | Odd.
Inductive stat := NoStat | Is (m : mode) | Lnk (target : option mode).
(** type: zero, cmd or alias (not here, 935-944), file or dir, others *)
Inductive mtype := Zero | Pathish | Other.
Record entry := mkE { e_type : mtype; e_ro : bool; e_hid : bool; e_stat : stat; e_name : text }.
Section Get.
(** wildmatch with WM_CASEFOLD|WM_SLASHFOLD|WM_WILDSTAR (C27) on the name without path (path::get_name, C29) *)
Variable glob : text -> text -> bool.
(** _strnicmp(s, "target", 6) == 0 *)
Definition is_target (s : option text) : bool := match s with Some s => iequals (firstn 6 s) s_target | None => false end.
Definition classify (m : mc) (e : entry) : N * ind :=
  let target := is_target (m_colors m Link) in
  let '(cflags, i) :=
    match e_stat e with
    | NoStat => (CFLAG_FILE, File)
    | _ =>
      let md := match e_stat e with Is md => Some md | Lnk (Some md) => if target then Some md else None | _ => None end in
      match md with
      | Some (Reg x) => if x then (N.lor CFLAG_FILE CFLAG_EXEC, Exec) else (CFLAG_FILE, File)
      | Some Folder => (CFLAG_DIR, Dir)
      | Some Odd => (0, Orphan)
      | None => if target then (0, Orphan) else (CFLAG_SYMLINK, Link)
      end
    end in
  match e_stat e, m_colors m Missing, m_colors m Orphan with
  | NoStat, Some _, _ => (0, Missing)
  | Lnk None, _, Some _ => (0, Orphan)
  | _, _, _ =>
      match e_type e with
      | Zero => (cflags, i)
      | Other => (0, Norm)
      | Pathish =>
          if cflags =? 0 then (cflags, i)
          else
            let '(cflags, i) := if e_ro e then (N.lor cflags CFLAG_READONLY, Readonly) else (cflags, i) in
            if e_hid e then (N.lor cflags CFLAG_HIDDEN, Hidden) else (cflags, i)
      end
  end.
Definition match_pat (name : text) (p : pat) : bool := Bool.eqb (glob (p_text p) name) (negb (p_not p)).
Definition rule_ok (cflags : N) (name : text) (r : rule) : bool :=
  ((r_flags r =? 0) || (N.land cflags (r_flags r) =? r_flags r)) && ((r_not r =? 0) || (N.land cflags (r_not r) =? 0)) && forallb (match_pat name) (r_pats r).
Definition get_match_color (m : mc) (e : entry) : option text :=
  let '(cflags, i) := classify m e in
  let i := if negb (N.land cflags CFLAG_DIR =? 0) && ind_eqb i Readonly then Dir else i in
  match find (rule_ok cflags (e_name e)) (m_rules m) with
  | Some r => Some (r_seq r)
  | None => m_colors m i
  end.
End Get.
