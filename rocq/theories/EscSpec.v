(** Terminal output as a sequence of plain text and ECMA-48 control functions, by grammar (code points). *)
From Verif Require Import Base UtfSpec EscModel.

(** The body of a control string: printable characters and format effectors, and complete nested OSC strings. *)
Definition strchar (c : N) : Prop := ((8 <= c <= 13 \/ 32 <= c) /\ c <> 156)%N.
Inductive sbody : list N -> Prop :=
| sb_nil : sbody []
| sb_char c r : strchar c -> sbody r -> sbody (c :: r)
| sb_bel b r : sbody b -> sbody r -> sbody (27 :: 93 :: b ++ 7 :: r)%N
| sb_st b r : sbody b -> sbody r -> sbody (27 :: 93 :: b ++ 27 :: 92 :: r)%N.

Inductive token :=
| KText (cs : list N)
| KC0 (c : N)
| KC1 (esc : bool) (k : N)
| KIcf (k : N)
| KCsi (esc : bool) (ps is : list N) (f : N)
| KStr (esc : bool) (k : N) (body term : list N)
| KSos (esc : bool) (body term : list N).

(** A C1 control is ESC and a letter, or the letter plus 64. *)
Definition intro (esc : bool) (k : N) : list N := if esc then [27; k]%N else [(k + 64)%N].
Definition ktext (k : token) : list N :=
  match k with
  | KText cs => cs
  | KC0 c => [c]
  | KC1 e k => intro e k
  | KIcf k => [27; k]%N
  | KCsi e ps is f => intro e 91 ++ ps ++ is ++ [f]
  | KStr e k b t => intro e k ++ b ++ t
  | KSos e b t => intro e 88 ++ b ++ t
  end.
Definition kview (k : token) : ctype * N :=
  match k with
  | KText _ => (TChars, 0)
  | KC0 c => (TC0, c)
  | KC1 _ k => (TC1, k)
  | KIcf k => (TIcf, k)
  | KCsi _ _ _ _ => (TC1, 91)
  | KStr _ k _ _ => (TC1, k)
  | KSos _ _ _ => (TC1, 88)
  end%N.
Definition kok (k : token) : Prop :=
  Forall scalar (ktext k) /\
  match k with
  | KText cs => Forall (fun c => 32 <= c)%N cs /\ (exists c r, cs = c :: r /\ ~ (128 <= c <= 159)%N)
  | KC0 c => (c < 32 /\ c <> 27)%N
  | KC1 _ k => (64 <= k <= 95)%N /\ ~ In k [80; 88; 91; 93; 94; 95]%N
  | KIcf k => (96 <= k <= 127)%N
  | KCsi _ ps is f => Forall (fun c => 48 <= c <= 63)%N ps /\ Forall (fun c => 32 <= c <= 47)%N is /\ (64 <= f <= 126)%N
  | KStr _ k b t => In k [80; 93; 94; 95]%N /\ sbody b /\ In t [[7]; [156]; [27; 92]]%N
  | KSos _ b t => Forall (fun c => c <> 27 /\ c <> 156)%N b /\ In t [[156]; [27; 92]]%N
  end.
(** Text runs up to the next C0 control. *)
Fixpoint separated (ks : list token) : Prop :=
  match ks with
  | KText _ :: ((k :: _) as r) => (exists c x, ktext k = c :: x /\ (c < 32)%N) /\ separated r
  | _ :: r => separated r
  | [] => True
  end.
Definition bytes_of (cs : list N) : list N := flat_map utf8 cs.

(** A code without the value it carries when it is text (which means nothing). *)
Definition cview (c : ecode) : ctype * N * list N :=
  let '(ty, v, x) := c in match ty with TChars => (TChars, 0%N, x) | _ => (ty, v, x) end.
Definition kcode (k : token) : ctype * N * list N := (kview k, bytes_of (ktext k)).
