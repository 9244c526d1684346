(** Text with control functions as a sequence of displayed characters and codes; widths. *)
From Verif Require Import Base UtfSpec EscModel EscSpec WidthModel WcModel WcSpec EllModel.
Open Scope N_scope.

Section Spec.
Variable ce : bool.
Variable wcw : N -> Z.
Definition graphemes := clusters ce wcw is_variant_selector is_possible_unqualified_half_width is_emoji.
(** a control character within text is displayed in one or two cells *)
Definition shown_width (expand : bool) (w : Z) : Z := if (w <? 0)%Z then (if expand then 2%Z else 1%Z) else w.
Definition chars_bits (expand : bool) (l : list glyph) : list bit := map (fun g : glyph => (true, bytes_of (fst (fst g)), shown_width expand (snd (fst g)))) l.
(** [shown ks l]: what the tokens display, token by token *)
Inductive shown (expand : bool) : list token -> list (list bit) -> Prop :=
| sh_nil : shown expand [] []
| sh_text cs l ks r : graphemes cs l -> shown expand ks r -> shown expand (KText cs :: ks) (chars_bits expand l :: r)
| sh_code k ks r : (match k with KText _ => False | _ => True end) -> shown expand ks r -> shown expand (k :: ks) ([(false, bytes_of (ktext k), 0%Z)] :: r).
End Spec.
(** the text and the cells of displayed characters and codes *)
Definition text (l : list bit) : list N := concat (map btext l).
Definition width (l : list bit) : Z := fold_right Z.add 0%Z (map bcells l).
Definition codes_only (l : list bit) : list bit := filter (fun b => negb (is_chars b)) l.
(** well formed text, in codes of at most 65532 bytes *)
Definition good_text (ks : list token) : Prop := Forall kok ks /\ separated ks /\ Forall (fun k => (N.of_nat (length (bytes_of (ktext k))) < 65533)) ks.
Definition enc (ks : list token) : list N := bytes_of (flat_map ktext ks).
