(** Model of wildmatch (wildmatch/wildmatch/wildmatch.c).  A text is the list of its bytes without the NUL at its end, and holds
    no other NUL; a pointer is the bytes from there on.  tolower, toupper and the character classes are those of the C locale;
    what the classes say about a byte from 128 on (a negative char) is the variable [high]. *)
From Verif Require Import Base.
Local Open Scope N_scope.

Notation text := (list N).
(** The flags (wildmatch.h 50-59); [pathname] as it is after lines 93-95.  [escape] is the absence of WM_NOESCAPE. *)
Record flags := mkf { escape : bool; pathname : bool; period : bool; leading_dir : bool; casefold : bool; wildstar : bool; slashfold : bool }.

(** is_slash (64-67), find_slash (69-78) *)
Definition is_slash (f : flags) (c : N) : bool := (c =? 47) || (slashfold f && (c =? 92)).
Fixpoint find_slash (f : flags) (s : text) : option text :=
  match s with [] => None | c :: r => if is_slash f c then Some s else find_slash f r end.
Definition peek (s : text) : N := hd 0 s.

Definition within (a b c : N) : bool := (a <=? c) && (c <=? b).
Definition to_lower (c : N) : N := if within 65 90 c then c + 32 else c.
Definition to_upper (c : N) : N := if within 97 122 c then c - 32 else c.
(** The value of a (signed) char *)
Definition schar (c : N) : Z := if c <? 128 then Z.of_N c else (Z.of_N c - 256)%Z.

(** ** rangematch (272-377) *)
Inductive class := Calnum | Calpha | Cblank | Ccntrl | Cdigit | Cgraph | Clower | Cprint | Cpunct | Cspace | Cxdigit | Cupper.
Definition classes : list (class * text) :=
  map (fun x => (fst x, map N_of_ascii (list_ascii_of_string (snd x))))
    [(Calnum, "alnum"); (Calpha, "alpha"); (Cblank, "blank"); (Ccntrl, "cntrl"); (Cdigit, "digit"); (Cgraph, "graph");
     (Clower, "lower"); (Cprint, "print"); (Cpunct, "punct"); (Cspace, "space"); (Cxdigit, "xdigit"); (Cupper, "upper")]%string.
Section Wm.
Variable high : class -> N -> bool.
Definition is_class (k : class) (c : N) : bool :=
  if 128 <=? c then high k c else
  match k with
  | Calnum => within 48 57 c || within 65 90 c || within 97 122 c
  | Calpha => within 65 90 c || within 97 122 c
  | Cblank => (c =? 32) || (c =? 9)
  | Ccntrl => (c <=? 31) || (c =? 127)
  | Cdigit => within 48 57 c
  | Cgraph => within 33 126 c
  | Clower => within 97 122 c
  | Cprint => within 32 126 c
  | Cpunct => within 33 47 c || within 58 64 c || within 91 96 c || within 123 126 c
  | Cspace => within 9 13 c || (c =? 32)
  | Cxdigit => within 48 57 c || within 65 70 c || within 97 102 c
  | Cupper => within 65 90 c
  end.
(** strncmp(p, n, sizeof(n)-1) == 0 *)
Fixpoint starts (n p : text) : bool :=
  match n, p with [], _ => true | x :: n, y :: p => (x =? y) && starts n p | _ :: _, [] => false end.
(** *p++ *)
Definition next (p : text) : N * text := match p with [] => (0, []) | c :: r => (c, r) end.

Inductive ranged := RError | RNo | RYes (newp : text).
(** The range at 317-337: None: RANGE_ERROR; else c, the pattern and ok after it. *)
Definition range_part (f : flags) (test c : N) (p : text) (ok : bool) : option (N * text * bool) :=
  match p with
  | d :: c2 :: r =>
      if (d =? 45) && negb (c2 =? 93) then
        let '(c2, r) := if (c2 =? 92) && escape f then next r else (c2, r) in
        if c2 =? 0 then None
        else let a := if casefold f then to_lower c else c in
             let b := if casefold f then to_lower c2 else c2 in
             let '(a, b) := if (schar b <? schar a)%Z then (b, a) else (a, b) in
             Some (a, r, ok || ((schar a <=? schar test)%Z && (schar test <=? schar b)%Z))
      else Some (c, p, ok)
  | _ => Some (c, p, ok)
  end.
(** The classes and the single character (339-371): the pattern and ok after it. *)
Definition class_part (f : flags) (test c : N) (p : text) (ok : bool) : text * bool :=
  let single := (p, ok || (c =? test)) in
  match p with
  | d :: q =>
      if (c =? 91) && (d =? 58) && negb (peek q =? 0) then
        if starts [58; 93] q then (p, ok)
        else match find (fun kn => starts (snd kn ++ [58; 93]) q) classes with
             | Some (k, n) =>
                 let v := match k with Cupper => if casefold f then to_upper test else test | _ => test end in
                 (skipn (length n + 3) p, ok || is_class k v)
             | None => single
             end
      else single
  | [] => single
  end.
(** The loop (305-373); [c] has been read and [p] is behind it. *)
Fixpoint range_loop (fuel : nat) (f : flags) (negate : bool) (test c : N) (p : text) (ok : bool) : option ranged :=
  match fuel with
  | O => None
  | S fuel =>
      let '(c, p) := if (c =? 92) && escape f then next p else (c, p) in
      if c =? 0 then Some RError
      else if (c =? 47) && pathname f then Some RNo
      else match range_part f test c p ok with
           | None => Some RError
           | Some (c, p, ok) =>
               let '(p, ok) := class_part f test c p ok in
               let '(c, p) := next p in
               if c =? 93 then Some (if Bool.eqb ok negate then RNo else RYes p) else range_loop fuel f negate test c p ok
           end
  end.
Definition rangematch (f : flags) (p : text) (test : N) : option ranged :=
  let negate := (peek p =? 33) || (peek p =? 94) in
  let p := if negate then tl p else p in
  let test := if is_slash f test then 47 else if casefold f then to_lower test else test in
  let '(c, p) := next p in range_loop (S (S (length p))) f negate test c p false.

(** ** wildmatch (81-269) *)
Fixpoint skip_stars (p : text) : text := match p with c :: r => if c =? 42 then skip_stars r else p | [] => [] end.
(** 148-155: a slash and two stars; [fuel] is at least the length. *)
Fixpoint skip_dirs (fuel : nat) (prev : N) (p : text) : N * text :=
  match fuel with
  | O => (prev, p)
  | S fuel =>
      match p with
      | c :: a :: b :: r => if (c =? 47) && (a =? 42) && (b =? 42) then skip_dirs fuel 47 (skip_stars r) else (prev, p)
      | _ => (prev, p)
      end
  end.
(** The byte behind the NUL of the string; None: reading it is undefined. *)
Variable beyond : option N.
(** The comparison at 253-260 *)
Definition same (f : flags) (c d : N) : bool :=
  (c =? d) || (casefold f && (to_lower c =? to_lower d)) || ((c =? 47) && is_slash f d).
(** [pv]: the byte before the pattern, None: reading it is undefined; [start]: stringstart; [sv]: the byte before the string, None
    at stringstart; [per]: WM_PERIOD (which is cleared at 221).  None: undefined, or out of fuel. *)
Fixpoint wm (fuel : nat) (f : flags) (per : bool) (pv : option N) (start : text) (sv : option N) (p s : text) : option bool :=
  match fuel with
  | O => None
  | S k =>
      (* 110-116 *)
      let leading := match sv with None => true | Some d => pathname f && is_slash f d end in
      let dot := (peek s =? 46) && per && leading in
      let normal (c : N) (p s : text) :=
        match s with
        | d :: r => if same f c d then wm k f per (Some c) start (Some d) p r else Some false
        | [] => Some false
        end in
      match p with
      | [] => Some ((leading_dir f && is_slash f (peek s)) || match s with [] => true | _ => false end)
      | c :: p1 =>
          if c =? 63 then
            match s with
            | [] => Some false
            | d :: r => if is_slash f d && pathname f then Some false else if dot then Some false else wm k f per (Some c) start (Some d) p1 r
            end
          else if c =? 42 then
            let wild := wildstar f && (peek p1 =? 42) in
            match (if wild then match pv with None => None | Some b => let q := skip_stars p1 in Some (skip_dirs (length q) b q) end
                   else Some (0, skip_stars p1)) with
            | None => None
            | Some (prev, p2) =>
                match (if wild && (peek p2 =? 47) then wm k f per (Some 47) s None (tl p2) s else Some false) with
                | Some false =>
                    let general := fix general (s : text) : option bool :=
                      match s with
                      | [] => Some false
                      | d :: r => match wm k f false (Some 42) s None p2 s with
                                  | Some false => if is_slash f d && pathname f then Some false else general r
                                  | x => x
                                  end
                      end in
                    if negb wild && dot then Some false
                    else match p2 with
                         | [] => if wild && (prev =? 47) then Some true
                                 else if pathname f then Some (leading_dir f || match find_slash f s with None => true | Some _ => false end)
                                 else Some true
                         | c2 :: p3 =>
                             if c2 =? 47 then
                               if wild then
                                 match find_slash f start with
                                 | None => Some false
                                 | Some _ =>
                                     let slashes := fix slashes (t : text) : option bool :=
                                       match t with
                                       | [] => Some false
                                       | d :: r => if is_slash f d
                                                   then match wm k f per (Some 47) r None p3 r with Some false => slashes r | x => x end
                                                   else slashes r
                                       end in
                                     match slashes start with Some false => general s | x => x end
                                 end
                               else if pathname f then match find_slash f s with None => Some false | Some s => general s end
                               else general s
                             else if wild then Some false
                             else general s
                         end
                | x => x
                end
            end
          else if c =? 91 then
            match s with
            | [] => Some false
            | d :: r =>
                if is_slash f d && pathname f then Some false
                else if dot then Some false
                else match rangematch f p1 d with
                     | None => None
                     | Some RError => normal 91 p1 r      (* 237-239: the string has moved on *)
                     | Some RNo => Some false
                     | Some (RYes q) => wm k f per (Some 93) start (Some d) q r
                     end
            end
          else if (c =? 92) && escape f then
            match p1 with
            | e :: p2 => normal e p2 s
            | [] =>                                          (* 242-250 *)
                match s with
                | [] => match beyond with None => None | Some _ => Some false end
                | [_] => Some false
                | _ => normal 92 [] s
                end
            end
          else normal c p1 s
      end
  end.
(** [before]: the byte before the pattern. *)
Definition wildmatch (before : option N) (f : flags) (p s : text) : option bool :=
  let f := mkf (escape f) (pathname f || wildstar f) (period f) (leading_dir f) (casefold f) (wildstar f) (slashfold f) in
  wm (S (length p)) f (period f) before s None p s.
End Wm.

(** api_fnmatch (clink/lua/src/path_api.cpp 310-333): None: an invalid flag. *)
Fixpoint fn_flags (l : text) (f : flags) : option flags :=
  match l with
  | [] => Some f
  | c :: r =>
      match (if c =? 101 then Some (mkf false (pathname f) (period f) (leading_dir f) (casefold f) (wildstar f) (slashfold f))
             else if c =? 112 then Some (mkf (escape f) true (period f) (leading_dir f) (casefold f) (wildstar f) (slashfold f))
             else if c =? 46 then Some (mkf (escape f) (pathname f) true (leading_dir f) (casefold f) (wildstar f) (slashfold f))
             else if c =? 108 then Some (mkf (escape f) (pathname f) (period f) true (casefold f) (wildstar f) (slashfold f))
             else if c =? 99 then Some (mkf (escape f) (pathname f) (period f) (leading_dir f) false (wildstar f) (slashfold f))
             else if c =? 42 then Some (mkf (escape f) (pathname f) (period f) (leading_dir f) (casefold f) true (slashfold f))
             else if c =? 115 then Some (mkf (escape f) (pathname f) (period f) (leading_dir f) (casefold f) (wildstar f) false)
             else None) with
      | Some f => fn_flags r f
      | None => None
      end
  end.
Definition fn_default : flags := mkf true false false false true false true.
