(** What the input queue is: a list of texts still to be delivered, in UTF-16 units. *)
From Verif Require Import Base UtfSpec QueueModel.

(** the units still to come, the flags, and whether none of it has been delivered yet *)
Record seg := mkS { s_units : list N; s_flags : flags; s_fresh : bool }.

(** complete lines end with LF; the empty text counts as complete *)
Definition ends_nl (u : list N) : bool := match u with [] => true | _ => (last u 0 =? 10)%N end.
(** the text without the line ends at its end, and with one CR LF *)
Inductive normal : list N -> list N -> Prop :=
| normal_intro a b : Forall (fun c => c = 13 \/ c = 10)%N b -> (a <> [] -> last a 0 <> 13 /\ last a 0 <> 10)%N -> normal (a ++ b) (a ++ [13; 10]%N).

(** appending text: to an unfinished last line, otherwise as a new line *)
Definition s_back (q : list seg) (u : list N) : list seg :=
  match u with
  | [] => q
  | _ => match rev q with
         | [] => [mkS u show_only true]
         | s :: r => if ends_nl (s_units s) then q ++ [mkS u show_only true]
                     else rev r ++ [mkS (s_units s ++ u) (s_flags s) (s_fresh s)]
         end
  end.

(** taking a character *)
Definition s_char (q : list seg) : option (N * bool * list seg) :=
  match q with
  | [] => None
  | s :: r => match s_units s with
              | [] => None
              | c :: u => Some (c, s_fresh s && ends_nl (s_units s), match u with [] => r | _ => mkS u (s_flags s) false :: r end)
              end
  end.

(** well-formed UTF-8 text *)
Definition text8 (t : list N) : Prop := exists vs, Forall scalar vs /\ t = flat_map utf8 vs.

(** the lines of a text: each without its LF, the last one with or (if not empty) without *)
Definition lines_of (t : list N) (ps : list (list N)) : Prop :=
  Forall (fun p => ~ In 10%N p) ps /\
  (t = concat (map (fun p => p ++ [10%N]) ps) \/ (t ++ [10%N] = concat (map (fun p => p ++ [10%N]) ps) /\ last ps [] <> [])).

Inductive op := OBack (t : list N) | OFront (ls : list (list N * flags)) | OLine | OChar | OClear.
Inductive res := RNone | RLine (r : option (list N * flags)) | RChar (r : option (N * bool)).

Definition no_edit (f : flags) : flags := mkF (f_hide f) (f_show f) false (f_nodos f).
Definition with_edit (f : flags) (u : list N) : flags := if ends_nl u then f else mkF (f_hide f) (f_show f) true (f_nodos f).
(** lines that are neither shown, nor marked as expanded, nor partly read, are subject to alias expansion *)
Definition may_expand (s : seg) : bool := s_fresh s && negb (f_hide (s_flags s) || f_show (s_flags s) || f_nodos (s_flags s)).

Section Spec.
Variable resolve : list N -> list N.
Inductive s_step : list seg -> op -> res -> list seg -> Prop :=
| SBack q t : s_step q (OBack t) RNone (s_back q (w16 t))
| SFront q ls ss : Forall2 (fun x s => normal (w16 (fst x)) (s_units s) /\ s_flags s = no_edit (snd x) /\ s_fresh s = true) ls ss ->
    s_step q (OFront ls) RNone (ss ++ q)
| SEmpty : s_step [] OLine (RLine None) []
| SLine s q out : (may_expand s = true -> exists x, normal (w8 (s_units s)) (x ++ [13; 10]%N) /\ resolve x = []) ->
    normal (w8 (s_units s)) out -> s_step (s :: q) OLine (RLine (Some (out, with_edit (s_flags s) (s_units s)))) q
| SAlias s q x p ps out : may_expand s = true -> normal (w8 (s_units s)) (x ++ [13; 10]%N) -> lines_of (resolve x) (p :: ps) ->
    normal p out ->
    s_step (s :: q) OLine (RLine (Some (out, with_edit (s_flags s) (s_units s)))) (map (fun p => mkS (w16 p) hide_nodos true) ps ++ q)
| SChar q c nl q' : s_char q = Some (c, nl, q') -> s_step q OChar (RChar (Some (c, nl))) q'
| SNoChar q : s_char q = None -> s_step q OChar (RChar None) q
| SClear q : s_step q OClear RNone [].
Inductive s_run : list seg -> list op -> list res -> list seg -> Prop :=
| run_nil q : s_run q [] [] q
| run_cons q o r q1 os rs q2 : s_step q o r q1 -> s_run q1 os rs q2 -> s_run q (o :: os) (r :: rs) q2.
End Spec.

(** the queue of the code, for the same operations *)
Definition q_step (resolve : list N -> list N) (q : list qline) (o : op) : res * list qline :=
  match o with
  | OBack t => (RNone, enqueue_back q t)
  | OFront ls => (RNone, enqueue_front q (map (fun x => mkQ (fst x) [] 0 (snd x)) ls))
  | OLine => match dequeue_line resolve q with None => (RLine None, q) | Some (out, f, q') => (RLine (Some (out, f)), q') end
  | OChar => let '(ok, c, nl, q') := dequeue_char q in (RChar (if ok then Some (c, nl) else None), q')
  | OClear => (RNone, [])
  end.
Fixpoint q_run (resolve : list N -> list N) (q : list qline) (os : list op) : list res * list qline :=
  match os with
  | [] => ([], q)
  | o :: os' => let '(r, q1) := q_step resolve q o in let '(rs, q2) := q_run resolve q1 os' in (r :: rs, q2)
  end.
Definition op_ok (o : op) : Prop :=
  match o with OBack t => text8 t | OFront ls => Forall (fun x => text8 (fst x)) ls | _ => True end.
