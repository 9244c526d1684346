(** clink/lib/src/line_queue.cpp and clink/lib/include/lib/line_queue.h: the queue of input lines.

    Text is a list of UTF-8 bytes (N) or UTF-16 units (N).  [w16] and [w8] are the results of to_utf16 and to_utf8 as
    modelled in UtfModel (UtfProperties: to16_target, to8_target).  The doskey expansion of a line is a parameter:
    the text left in the doskey_alias, [] when no alias applies. *)
From Verif Require Import Base UtfModel UtfSpec UtfProofs.

Definition w16 (t : list N) : list N := full d8 split16 65536 t.
Definition w8 (t : list N) : list N := full dl16 split8 256 t.

(** line_queue.h 11-19 *)
Record flags := mkF { f_hide : bool; f_show : bool; f_edit : bool; f_nodos : bool }.

(** line_queue.h 27-35 *)
Record qline := mkQ { q_line : list N; q_wline : list N; q_cur : nat; q_flags : flags }.

(** line_queue.cpp 11-21 *)
Definition is_nl (c : N) : bool := ((c =? 13) || (c =? 10))%N.
Fixpoint strip_front (l : list N) : list N :=
  match l with [] => [] | c :: r => if is_nl c then strip_front r else l end.
Definition strip_line_endings (l : list N) : list N := rev (strip_front (rev l)).

(** lines 24-28 *)
Definition ensure_crlf (l : list N) : list N := strip_line_endings l ++ [13; 10]%N.

(** m_line.length() && m_line.c_str()[m_line.length() - 1] != '\n' (lines 51, 102, 172) *)
Definition unfinished (l : list N) : bool := match l with [] => false | _ => negb (last l 0 =? 10)%N end.

Definition show_only : flags := mkF false true false false.

(** lines 43-66 *)
Definition enqueue_back (q : list qline) (line : list N) : list qline :=
  match line with
  | [] => q
  | _ =>
    match q with
    | [] => [mkQ line [] 0 show_only]
    | _ =>
      let b := last q (mkQ [] [] 0 show_only) in
      if unfinished (q_line b) then
        removelast q ++ [mkQ (q_line b ++ line) (if 0 <? q_cur b then q_wline b ++ w16 line else q_wline b) (q_cur b) (q_flags b)]
      else q ++ [mkQ line [] 0 show_only]
    end
  end.

(** lines 69-88; the loop runs over the list from its end and pushes each at the front *)
Definition front_one (q : list qline) (x : qline) : list qline :=
  mkQ (ensure_crlf (q_line x)) (q_wline x) (q_cur x) (mkF (f_hide (q_flags x)) (f_show (q_flags x)) false (f_nodos (q_flags x))) :: q.
Definition enqueue_front (q : list qline) (lines : list qline) : list qline := fold_left front_one (rev lines) q.

(** doskey.cpp 250-267 (doskey_alias::next), called until it returns false; fuel = length *)
Fixpoint next_line (t : list N) : list N * list N :=
  match t with
  | [] => ([], [])
  | c :: r => if (c =? 10)%N then ([], r) else let '(a, b) := next_line r in (c :: a, b)
  end.
Fixpoint pieces (fuel : nat) (t : list N) : list (list N) :=
  match fuel, t with
  | 0, _ => []
  | _, [] => []
  | S f, _ => let '(a, b) := next_line t in a :: pieces f b
  end.

(** lines 91-137.  None: the queue is empty (false is returned). *)
Definition hide_nodos : flags := mkF true false false true.
Definition dequeue_line (resolve : list N -> list N) (q : list qline) : option (list N * flags * list qline) :=
  match q with
  | [] => None
  | front :: rest =>
    let out := match q_cur front with 0 => q_line front | c => w8 (skipn c (q_wline front)) end in
    let f := if unfinished (q_line front) then mkF (f_hide (q_flags front)) (f_show (q_flags front)) true (f_nodos (q_flags front)) else q_flags front in
    let '(out, queue) :=
      if (q_cur front =? 0) && negb (f_hide f || f_show f || f_nodos f) then
        let t := resolve (strip_line_endings (q_line front)) in
        match pieces (S (length t)) t with
        | [] => (out, [])
        | p :: ps => (p, fold_left (fun l x => x :: l) ps [])
        end
      else (out, []) in
    Some (ensure_crlf out, f, fold_left (fun l x => mkQ x [] 0 hide_nodos :: l) queue rest)
  end.

(** lines 140-162.  (result, character, new_line, queue) *)
Definition dequeue_char (q : list qline) : bool * N * bool * list qline :=
  match q with
  | [] => (false, 0%N, false, q)
  | front :: rest =>
    let w := if q_cur front =? 0 then w16 (q_line front) else q_wline front in
    let nl := (q_cur front =? 0) && negb (unfinished (q_line front)) && negb (length (q_line front) =? 0) in
    match nth_error w (q_cur front) with
    | None => (false, 0%N, nl, mkQ (q_line front) w (q_cur front) (q_flags front) :: rest)
    | Some c =>
      (true, c, nl,
       if length w <=? S (q_cur front) then rest else mkQ (q_line front) w (S (q_cur front)) (q_flags front) :: rest)
    end
  end.

(** lines 171-178 *)
Definition incomplete (q : list qline) : bool :=
  match q with
  | [x] => (length (q_line x) =? 0) || unfinished (q_line x)
  | _ => true
  end.
