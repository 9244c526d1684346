(** Display characters, in terms of code points. *)
From Verif Require Import Base WcModel.
Open Scope N_scope.

Section Spec.
Variable emoji_on : bool.
Variable wcw : N -> Z.
Variables is_vs is_unq is_emo : N -> bool.

Definition starts (P : N -> bool) (r : list N) : bool := match r with [] => false | c :: _ => P c end.
Definition zwj : N := 8205.
(** what may follow a zero width joiner *)
Definition joins (c : N) : bool := is_emo c || is_unq c || (c =? 9792) || (c =? 9794).

(** [etail t r w]: of [t ++ r], [t] continues an emoji; [w]: and makes it wide *)
Inductive etail : list N -> list N -> bool -> Prop :=
| et_stop r : starts is_vs r = false -> starts (N.eqb zwj) r = false -> etail [] r false
| et_vs v t r w : is_vs v = true -> etail t r w -> etail (v :: t) r true
| et_zwj_end r : is_vs zwj = false -> starts joins r = false -> etail [zwj] r true
| et_zwj e t r w : is_vs zwj = false -> joins e = true -> etail t r w -> etail (zwj :: e :: t) r true.

(** what is added to a character that is no emoji *)
Definition selects (c : N) : bool := emoji_on && is_vs c && negb (wcw c =? 0)%Z.
Definition extends (c : N) : bool := (wcw c =? 0)%Z || emoji_on && is_vs c.
Definition always_wide (c : N) : bool := (c =? 12336) || (c =? 12349) || (c =? 12951) || (c =? 12953).
Definition emojis_start (c : N) : bool := is_unq c || is_emo c || is_vs c.
Definition widen (b : bool) (w : Z) : Z := if b then Z.max w 2 else w.

(** [cluster u r w e]: of [u ++ r], [u] is the first display character; its width and whether it is an emoji *)
Inductive cluster : list N -> list N -> Z -> bool -> Prop :=
| cl_control c r : (wcw c < 0)%Z -> cluster [c] r (wcw c) false
| cl_flag a b r : emoji_on = true -> (0 < wcw a)%Z -> regional a = true -> regional b = true -> cluster [a; b] r 2 true
| cl_emoji c t r w : emoji_on = true -> (0 < wcw c)%Z -> regional c && starts regional (t ++ r) = false -> emojis_start c = true ->
    etail t r w -> cluster (c :: t) r (widen (w || always_wide c && (is_unq c || is_emo c) || negb (is_unq c || is_emo c)) (wcw c)) true
| cl_plain c t r : (0 <= wcw c)%Z -> emoji_on && negb (wcw c =? 0)%Z && (emojis_start c || regional c && starts regional (t ++ r)) = false ->
    Forall (fun x => extends x = true) t -> starts extends r = false -> cluster (c :: t) r (widen (existsb selects t) (wcw c)) (existsb selects t).

Inductive clusters : list N -> list (list N * Z * bool) -> Prop :=
| cs_nil : clusters [] []
| cs_cons u r w e l : cluster u r w e -> clusters r l -> clusters (u ++ r) ((u, w, e) :: l).
End Spec.
