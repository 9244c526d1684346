(** clink/lib/src/ellipsify.cpp: truncating text to a number of cells; cell_count, clink/terminal/src/ecma48_iter.cpp 17-35.

    int32 counts are unbounded here (texts are far below 2^31 cells); USE_ASCII_ELLIPSIS is not defined. *)
From Verif Require Import Base UtfModel UtfSpec UtfProofs EscModel WidthModel WcModel.
Open Scope N_scope.

(** ellipsify.cpp 25: U+2026; ellipsify.h: ellipsis_len 3, ellipsis_cells 1 *)
Definition dots : list N := [226; 128; 166].

Section Ell.
(** g_color_emoji and wcwidth *)
Variable ce : bool.
Variable wcw : N -> Z.
Definition gl (t : list N) := glyphs ce wcw is_variant_selector is_possible_unqualified_half_width is_emoji t.

(** while (code = iter.next()): of each code, whether it is type_chars, its text, and the offsets in the text of its
    beginning (for text, code.get_pointer(); for the others prev_end, 226) and of iter.get_pointer() afterwards *)
Fixpoint scan (total : nat) (fuel : nat) (s : estate) (t : list N) : option (list (bool * list N * nat * nat)) :=
  match fuel with
  | O => None
  | S fuel =>
    match enext s t with
    | None => None
    | Some (None, _, _) => Some []
    | Some (Some (ty, c, x), s1, t1) =>
      if len16 x =? 0 then Some []
      else
        let chars := match ty with TChars => true | _ => false end in
        let from := if chars then (total - length t1 - length x)%nat else (total - length t)%nat in
        match scan total fuel s1 t1 with None => None | Some l => Some ((chars, seen x, from, (total - length t1)%nat) :: l) end
    end
  end.
Definition scan_all (t : list N) := scan (length t) (S (length t)) (fresh TNone 0) t.

(** A display character, or an escape code: chars, its text, its cells; and its offset *)
Definition bit := (bool * list N * Z)%type.
Definition is_chars (b : bit) : bool := fst (fst b).
Definition btext (b : bit) : list N := snd (fst b).
Definition bcells (b : bit) : Z := snd b.
(** 66, 157, 215 *)
Definition clen (expand : bool) (w : Z) : Z := if (w <? 0)%Z then (if expand then 2%Z else 1%Z) else w.
Fixpoint place (n : nat) (l : list bit) : list (bit * nat) :=
  match l with [] => [] | b :: l => (b, n) :: place (n + length (btext b)) l end.
Definition bits_of (expand : bool) (c : bool * list N * nat * nat) : option (list (bit * nat)) :=
  let '(chars, x, from, _) := c in
  if chars then
    match gl x with
    | None => None
    | Some (l, _) => Some (place from (map (fun g : glyph => (true, fst (fst g), clen expand (snd (fst g)))) l))
    end
  else Some [((false, x, 0%Z), from)].
Fixpoint mapo {A B} (f : A -> option B) (l : list A) : option (list B) :=
  match l with [] => Some [] | a :: l => match f a, mapo f l with Some b, Some r => Some (b :: r) | _, _ => None end end.
Definition codes_of (expand : bool) (t : list N) : option (list (list (bit * nat))) :=
  match scan_all t with None => None | Some l => mapo (bits_of expand) l end.
Definition sum_cells (l : list bit) : Z := fold_right Z.add 0%Z (map bcells l).
Definition bits (l : list (bit * nat)) : list bit := map fst l.

(** 116-131; ecma48_iter.cpp 17-35 is the case without expand_ctrl *)
Definition measure (expand : bool) (t : list N) : option Z :=
  match codes_of expand t with None => None | Some cs => Some (sum_cells (bits (concat cs))) end.
Definition cell_count (t : list N) : option Z := measure false t.

(** visible_len, out, and truncate_visible with truncate_bytes once set.  [Bad]: truncate(-1). *)
Inductive rres := More (v : Z) (out : list N) (tr : option (Z * nat)) | Cut (v : Z) (out : list N) | Bad.
(** 64-90, 155-189: the characters of a code *)
Fixpoint rloop (limit e : Z) (l : list bit) (v : Z) (out : list N) (tr : option (Z * nat)) : rres :=
  match l with
  | [] => More v out tr
  | b :: l =>
    if is_chars b then
      let tr := match tr with None => if (limit - e <? v + bcells b)%Z then Some (v, length out) else None | _ => tr end in
      if (limit <? v + bcells b)%Z then
        match tr with None => Bad | Some (v, n) => Cut v (firstn n out) end
      else rloop limit e l (v + bcells b)%Z (out ++ btext b) tr
    else rloop limit e l v (out ++ btext b) tr
  end.
(** 56-95, 146-195 *)
Fixpoint rcodes (limit e : Z) (cs : list (list bit)) (v : Z) (out : list N) (tr : option (Z * nat)) : rres :=
  if (v <=? limit)%Z then
    match cs with
    | [] => More v out tr
    | c :: cs => match rloop limit e c v out tr with More v out tr => rcodes limit e cs v out tr | r => r end
    end
  else More v out tr.

(** 46-97 *)
Definition ellipsify (t : list N) (limit : Z) (expand : bool) : option (list N * Z) :=
  match codes_of expand t with
  | None => None
  | Some cs =>
    match rcodes limit 1 (map bits cs) 0 [] None with
    | More v out _ => Some (out, v)
    | Cut v out => match cell_count dots with None => None | Some n => Some (out ++ dots, (v + n)%Z) end
    | Bad => None
    end
  end.

(** 138-140: e and e_cells; [None]: no _ellipsis given *)
Definition e_text (e : option (list N)) : list N := match e with None => dots | Some e => e end.
Definition e_cells (e : option (list N)) : option Z := match e with None => Some 1%Z | Some e => cell_count e end.
Definition res := (list N * Z * bool)%type.
(** 107-196, RIGHT.  The recursion is two deep: [fuel] is 3. *)
Fixpoint ex_right (fuel : nat) (t : list N) (limit : Z) (e : option (list N)) (expand : bool) : option res :=
  match fuel with
  | O => None
  | S fuel =>
    match codes_of expand t, e_cells e with
    | Some cs, Some ec =>
      let total := sum_cells (bits (concat cs)) in
      if (total <=? limit)%Z then Some (t, total, false)
      else
        match rcodes limit ec (map bits cs) 0 [] None with
        | More v out _ => Some (out, v, false)
        | Cut v out =>
          if (0 <? limit - v)%Z then
            match ex_right fuel (e_text e) (limit - v) (Some []) expand with
            | None => None
            | Some (eo, w, _) => Some (out ++ eo, (v + w)%Z, true)
            end
          else Some (out, v, true)
        | Bad => None
        end
    | _, _ => None
    end
  end.
Definition right_ := ex_right 3.

Inductive lres := LFit | LCut (v : Z) (k : nat) | LBad.
(** 246-298: over the runs from the right; [l] is reversed, [k] is the number of runs before truncate_run *)
Fixpoint lloop (limit e : Z) (l : list bit) (v : Z) (tr : option (Z * nat)) : lres :=
  match l with
  | [] => LFit
  | b :: l =>
    if (v <=? limit)%Z then
      if is_chars b then
        let tr := match tr with None => if (limit - e <? v + bcells b)%Z then Some (v, S (length l)) else None | _ => tr end in
        if (limit <? v + bcells b)%Z then match tr with None => LBad | Some (v, k) => LCut v k end
        else lloop limit e l (v + bcells b)%Z tr
      else lloop limit e l v tr
    else LFit
  end.
Definition sub (t : list N) (from len : nat) : list N := firstn len (skipn from t).
(** 107-140, 198-306: LEFT *)
Definition left_ (t : list N) (limit : Z) (e : option (list N)) (expand : bool) : option res :=
  match codes_of expand t, e_cells e with
  | Some cs, Some ec =>
    let runs := concat cs in
    let total := sum_cells (bits runs) in
    if (total <=? limit)%Z then Some (t, total, false)
    else
      match lloop limit ec (rev (bits runs)) 0 None with
      | LFit => Some (t, total, false)
      | LBad => None
      | LCut v k =>
        let lead := flat_map (fun r : bit * nat => if is_chars (fst r) then [] else sub t (snd r) (length (btext (fst r)))) (firstn k runs) in
        let tail := match skipn k runs with [] => [] | r :: _ => skipn (snd r) t end in
        if (0 <? limit - v)%Z then
          match right_ (e_text e) (limit - v) (Some []) expand with
          | None => None
          | Some (eo, w, _) => Some (lead ++ eo ++ tail, (v + w)%Z, true)
          end
        else Some (lead ++ tail, v, true)
      end
  | _, _ => None
  end.

(** 334-358: the characters of a code; [Some None]: not a drive, [Some (Some _)]: drive found, [None]: go on *)
Inductive dres := DGo (chars fin : nat) | DNo | DYes (fin : nat).
Definition letter (c : N) : bool := (97 <=? c) && (c <=? 122) || (65 <=? c) && (c <=? 90).
Fixpoint dchars (fuel : nat) (x : list N) (chars fin : nat) : dres :=
  match fuel with
  | O => DGo chars fin
  | S fuel =>
    let c := fst (d8 x) in
    if c =? 0 then DGo chars fin
    else match chars with
         | O => if letter c then dchars fuel (snd (d8 x)) 1 (S fin) else DNo
         | 1%nat => if c =? 58 then dchars fuel (snd (d8 x)) 2 (S fin) else DNo
         | _ => DYes fin
         end
  end.
(** 315-367: drive_end - in *)
Fixpoint drive (l : list (bool * list N * nat * nat)) (chars fin : nat) : option nat :=
  match l with
  | [] => None
  | (true, x, _, _) :: l => match dchars (length x) x chars fin with DGo chars fin => drive l chars fin | DNo => None | DYes fin => Some fin end
  | (false, _, _, fin) :: l => drive l chars fin
  end.
(** 107-140, 308-393: PATH *)
Definition path_ (t : list N) (limit : Z) (e : option (list N)) (expand : bool) : option res :=
  match codes_of expand t, e_cells e, scan_all t with
  | Some cs, Some ec, Some sc =>
    let total := sum_cells (bits (concat cs)) in
    if (total <=? limit)%Z then Some (t, total, false)
    else
      let d := match drive sc 0 0 with None => 0%nat | Some d => d end in
      match cell_count (firstn d t) with
      | None => None
      | Some dc =>
        let fallback := right_ t limit e false in
        if (dc <=? limit)%Z then
          match left_ (skipn d t) (limit - dc) e false with
          | None => None
          | Some (o, n, tr) => if (ec <=? n)%Z && (dc + n <=? limit)%Z then Some (firstn d t ++ o, (dc + n)%Z, tr) else fallback
          end
        else fallback
      end
  | _, _, _ => None
  end.
Inductive mode := RIGHT | LEFT | PATH.
Definition ellipsify_ex (t : list N) (limit : Z) (m : mode) (e : option (list N)) (expand : bool) : option res :=
  match m with RIGHT => right_ t limit e expand | LEFT => left_ t limit e expand | PATH => path_ t limit e expand end.
End Ell.
