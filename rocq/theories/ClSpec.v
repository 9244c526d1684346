(** The documented meaning of coloring rules: the help of match.coloring_rules and the comments in match_colors.cpp (60-118, 225-243, 582-616). *)
From Verif Require Import Base.
From Verif Require Export ClModel.
Open Scope N_scope.

(** ** How text is written: characters as they are, \c, octal, hexadecimal, ^c, quoted *)
Inductive item := Ch (c : N) | Es (c : N) | Oc (a b c : N) | Hx (big : bool) (a b : N) | Un (big : bool) (a b c d : N) | Ct (c : N) | Qu (s : text).
Definition write1 (i : item) : text :=
  match i with
  | Ch c => [c]
  | Es c => [92; c]
  | Oc a b c => [92; 48 + a; 48 + b; 48 + c]
  | Hx big a b => [92; if big then 88 else 120; a; b]
  | Un big a b c d => [92; if big then 85 else 117; a; b; c; d]
  | Ct c => [94; c]
  | Qu s => 34 :: s ++ [34]
  end.
Definition digit (c : N) : N := if c <=? 57 then c - 48 else if c <=? 70 then c - 55 else c - 87.
Definition is_digit (c : N) : Prop := 48 <= c <= 57 \/ 65 <= c <= 70 \/ 97 <= c <= 102.
(** \a \b \e \f \n \r \t \v \? \_ *)
Definition escapes : list (N * N) := [(97, 7); (98, 8); (101, 27); (102, 12); (110, 10); (114, 13); (116, 9); (118, 11); (63, 127); (95, 32)].
Definition value1 (i : item) : N :=
  match i with
  | Ch c => c
  | Es c => match find (fun x => fst x =? c) escapes with Some (_, v) => v | None => c end
  | Oc a b c => 64 * a + 8 * b + c
  | Hx _ a b => 16 * digit a + digit b
  | Un _ a b c d => 4096 * digit a + 256 * digit b + 16 * digit c + digit d
  | Ct c => if c =? 63 then 127 else c mod 32
  | Qu _ => 0
  end.
Definition read1 (i : item) : text := match i with Qu s => s | _ => [value1 i] end.
Definition quotes (i : item) : bool := match i with Qu _ => true | _ => false end.
(** a character of the basic plane, not half a pair *)
Definition unit_ok (c : N) : Prop := 0 < c < 55296 \/ 57344 <= c < 65536.
(** [stop]: the characters that have to be escaped or quoted *)
Definition good_item (stop : N -> Prop) (i : item) : Prop :=
  match i with
  | Ch c => c <> 34 /\ c <> 92 /\ c <> 94 /\ c <> 58 /\ ~ stop c
  | Es c => unit_ok c /\ ~ (48 <= c <= 55) /\ c <> 120 /\ c <> 88 /\ c <> 117 /\ c <> 85
  | Oc a b c => a < 8 /\ b < 8 /\ c < 8 /\ unit_ok (value1 i)
  | Hx _ a b => is_digit a /\ is_digit b /\ unit_ok (value1 i)
  | Un _ a b c d => is_digit a /\ is_digit b /\ is_digit c /\ is_digit d /\ unit_ok (value1 i)
  | Ct c => 64 < c <= 126 /\ c mod 32 <> 0 \/ c = 63
  | Qu s => ~ In 34 s
  end.
Definition written (l : list item) : text := concat (map write1 l).
Definition reading (l : list item) : text := concat (map read1 l).
Definition quoted (l : list item) : bool := existsb quotes l.

(** ** Conditions and rules *)
Inductive word := WNot | WAny | WType (i : ind) | WPat (p : text).
Definition type_names : list (text * ind) :=
  [([110; 111], Norm); ([102; 105], File); ([100; 105], Dir); ([114; 111], Readonly); ([104; 105], Hidden); ([108; 110], Link); ([101; 120], Exec); ([109; 105], Missing); ([111; 114], Orphan); ([115; 111], Sock)].
(** the word [b], of small letters, in any case *)
Definition same_letter (x y : N) : bool := (x =? y) || ((65 <=? x) && (x <=? 90) && (x + 32 =? y)).
Fixpoint same_word (a b : text) : bool := match a, b with [], [] => true | x :: a', y :: b' => same_letter x y && same_word a' b' | _, _ => false end.
Definition word_of (l : list item) : word :=
  let t := reading l in
  if quoted l then WPat t
  else if same_word t [110; 111; 116] then WNot
  else if same_word t [97; 110; 121] then WAny
  else match find (fun n => same_word t (fst n)) type_names with Some (_, i) => WType i | None => WPat t end.
(** a rule as written: words after some spaces each, spaces, the color *)
Record wrule := mkW { w_words : list (nat * list item); w_end : nat; w_color : list item }.
Definition spaces (n : nat) : text := repeat 32 n.
Fixpoint write_words (first : bool) (l : list (nat * list item)) : text :=
  match l with [] => [] | (n, w) :: l' => spaces (if first then n else S n) ++ written w ++ write_words false l' end.
Definition write_rule (r : wrule) : text := write_words true (w_words r) ++ spaces (w_end r) ++ [61] ++ written (w_color r).
Fixpoint write_rules (l : list wrule) : text := match l with [] => [] | [r] => write_rule r | r :: l' => write_rule r ++ [58] ++ write_rules l' end.
(** types, with whether they are negated, and patterns; "any" clears the types *)
Record srule := mkS { s_types : list (bool * ind); s_pats : list (bool * text); s_any : bool }.
Fixpoint conds (neg : bool) (l : list word) (s : srule) : srule :=
  match l with
  | [] => s
  | WNot :: l' => conds true l' s
  | WAny :: l' => conds false l' (mkS [] (s_pats s) true)
  | WType i :: l' => conds false l' (mkS (s_types s ++ [(neg, i)]) (s_pats s) (s_any s))
  | WPat p :: l' => conds false l' (mkS (s_types s) (s_pats s ++ [(neg, p)]) (s_any s))
  end.
Definition rule_of (r : wrule) : srule := conds false (map (fun w => word_of (snd w)) (w_words r)) (mkS [] [] false).
(** exactly one type and no patterns: evaluated last *)
Definition single (s : srule) : option ind := match s_types s, s_pats s with [(false, i)], [] => Some i | _, _ => None end.
(** no type and a pattern means files, unless "any" *)
Definition types (s : srule) : list (bool * ind) := match s_types s, s_pats s with [], _ :: _ => if s_any s then [] else [(false, File)] | l, _ => l end.
Definition empty (s : srule) : bool := match s_types s, s_pats s with [], [] => true | _, _ => false end.

(** ** The color of a match *)
Section Color.
Variable glob : text -> text -> bool.
(** what a match is: links count as what they lead to if the color of ln is target *)
Inductive kind := KFile (x : bool) | KDir | KLink | KNone.
Definition of_mode (m : mode) : kind := match m with Reg x => KFile x | Folder => KDir | Odd => KNone end.
Definition kind_of (target : bool) (e : entry) : kind :=
  match e_type e with
  | Other => KNone
  | _ => match e_stat e with
         | NoStat => KFile false
         | Is m => of_mode m
         | Lnk t => if target then match t with Some m => of_mode m | None => KNone end else KLink
         end
  end.
Definition attr (target : bool) (e : entry) (a : entry -> bool) : bool := match e_type e, kind_of target e with Pathish, KNone => false | Pathish, _ => a e | _, _ => false end.
Definition is_type (target : bool) (e : entry) (i : ind) : bool :=
  match i with
  | File => match kind_of target e with KFile _ => true | _ => false end
  | Exec => match kind_of target e with KFile x => x | _ => false end
  | Dir => match kind_of target e with KDir => true | _ => false end
  | Link => match kind_of target e with KLink => true | _ => false end
  | Readonly => attr target e e_ro
  | Hidden => attr target e e_hid
  | Norm => match kind_of target e with KNone => true | _ => false end
  | _ => false
  end.
Definition holds (target : bool) (e : entry) (s : srule) : bool :=
  forallb (fun t : bool * ind => xorb (fst t) (is_type target e (snd t))) (types s) && forallb (fun p : bool * text => xorb (fst p) (glob (snd p) (e_name e))) (s_pats s).
(** the type that decides if no rule does: hidden, directory, readonly, executable or link, file *)
Definition main_type (target : bool) (e : entry) : ind :=
  if is_type target e Hidden then Hidden
  else match kind_of target e with
       | KDir => Dir
       | k => if is_type target e Readonly then Readonly else match k with KFile true => Exec | KFile false => File | KLink => Link | _ => match e_type e with Other => Norm | _ => Orphan end end
       end.
(** the color of links is target: they are colored as what they lead to *)
Definition follows_links (color : option text) : bool := match color with Some s => same_word (firstn 6 s) [116; 97; 114; 103; 101; 116] | None => false end.
(** the last rule for the type alone *)
Definition type_color (dflt : ind -> option text) (rules : list wrule) (i : ind) : option text :=
  fold_left (fun o r => match single (rule_of r) with Some j => if ind_eqb j i then Some (reading (w_color r)) else o | None => o end) rules (dflt i).
Definition match_color (dflt : ind -> option text) (rules : list wrule) (e : entry) : option text :=
  let target := follows_links (type_color dflt rules Link) in
  match find (fun r => let s := rule_of r in negb (empty s) && match single s with Some _ => false | None => true end && holds target e s) rules with
  | Some r => Some (reading (w_color r))
  | None => type_color dflt rules (main_type target e)
  end.
End Color.

(** ** The rules this is claimed for *)
Definition cond_stop (c : N) : Prop := c = 61 \/ c <= 32.
Definition color_stop (c : N) : Prop := c = 0.
(** quoted or not, "not" is the operator (see the refutation); mi, or, so have no effect (see the refutations), no is only used alone *)
Definition good_word (w : list item) : Prop :=
  Forall (good_item cond_stop) w /\ reading w <> [] /\ (quoted w = true -> same_word (reading w) [110; 111; 116] = false) /\
  match word_of w with WType (Missing | Orphan | Sock) => False | _ => True end.
(** an escaped space at the end is trimmed (see the refutation) *)
Definition good_end (w : list item) : Prop := match last w (Ch 120) with Es c => right_space c = false | _ => True end.
Definition good_rule (r : wrule) : Prop :=
  w_words r <> [] /\ Forall (fun w => good_word (snd w)) (w_words r) /\ good_end (snd (last (w_words r) (O, []))) /\ Forall (good_item color_stop) (w_color r) /\
  (In (false, Norm) (s_types (rule_of r)) \/ In (true, Norm) (s_types (rule_of r)) -> single (rule_of r) = Some Norm) /\
  ~ written (snd (hd (O, []) (w_words r))) = s_prefix.
