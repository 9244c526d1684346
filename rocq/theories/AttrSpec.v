(** What text attributes, SGR parameters and CSI parameters mean. *)
From Verif Require Import Base AttrModel.
Open Scope N_scope.

(** Each attribute: is it set, and its value. *)
Record av := mkV { v_fg : bool * N; v_bg : bool * N; v_bold : bool * bool; v_ul : bool * bool; v_rev : bool * bool }.
Definition view (s : N) : av :=
  mkV (fst (get_fg s)) (fst (get_bg s)) (get_bold s) (get_underline s) (get_reverse s).
Definition unset : av := mkV (false, 0) (false, 0) (false, false) (false, false) (false, false).
Definition plain : av := mkV (true, 231) (true, 231) (true, false) (true, false) (true, false).
Definition full (v : av) : Prop := fst (v_fg v) = true /\ fst (v_bg v) = true /\ fst (v_bold v) = true /\ fst (v_ul v) = true /\ fst (v_rev v) = true.

(** [y] laid over [x] *)
Definition over1 {A} (x y : bool * A) : bool * A := (fst x || fst y, if fst y then snd y else snd x).
Definition over (x y : av) : av :=
  mkV (over1 (v_fg x) (v_fg y)) (over1 (v_bg x) (v_bg y)) (over1 (v_bold x) (v_bold y)) (over1 (v_ul x) (v_ul y)) (over1 (v_rev x) (v_rev y)).
(** only what is set counts *)
Definition vis1 {A} (x : bool * A) : option A := if fst x then Some (snd x) else None.
Definition visible (v : av) := (vis1 (v_fg v), vis1 (v_bg v), vis1 (v_bold v), vis1 (v_ul v), vis1 (v_rev v)).

(** Colors: a palette entry, a 24 bit color (kept to five bits each), or the default. *)
Inductive color := CIdx (i : N) | CRgb (r g b : N) | CDef.
Definition cval (c : color) : N :=
  match c with
  | CIdx i => i
  | CRgb r g b => r / 8 + 32 * (g / 8) + 1024 * (b / 8) + 32768
  | CDef => 231
  end.
(** The xterm palette: 16 colors, a 6x6x6 cube, 24 grays. *)
Definition level (i : N) : N := if i =? 0 then 0 else 55 + 40 * i.
Definition xterm (i : N) : color :=
  if i <? 16 then CIdx i
  else if i <? 232 then let j := i - 16 in CRgb (level (j / 36)) (level (j / 6 mod 6)) (level (j mod 6))
  else let g := 8 + 10 * (i - 232) in CRgb g g g.

(** Colors as SGR writes them. *)
Inductive pcolor := PDark (i : N) | PBright (i : N) | PX (i : N) | PRgb (r g b : N) | PDef.
Definition pok (c : pcolor) : Prop :=
  match c with
  | PDark i | PBright i => i < 8
  | PX i => i < 256
  | PRgb r g b => r < 256 /\ g < 256 /\ b < 256
  | PDef => True
  end.
Definition pmean (c : pcolor) : color :=
  match c with
  | PDark i => CIdx i
  | PBright i => CIdx (i + 8)
  | PX i => xterm i
  | PRgb r g b => CRgb r g b
  | PDef => CDef
  end.
(** base 30 or 40 *)
Definition penc (base : N) (c : pcolor) : list N :=
  match c with
  | PDark i => [base + i]
  | PBright i => [base + 60 + i]
  | PX i => [base + 8; 5; i]
  | PRgb r g b => [base + 8; 2; r; g; b]
  | PDef => [base + 9]
  end.
Inductive sgrcmd := GReset | GBold (b : bool) | GFaint | GUl (b : bool) | GRev (b : bool) | GFg (c : pcolor) | GBg (c : pcolor) | GOther (p : N).
Definition genc (g : sgrcmd) : list N :=
  match g with
  | GReset => [0]
  | GBold true => [1]
  | GBold false => [22]
  | GFaint => [2]
  | GUl true => [4]
  | GUl false => [24]
  | GRev true => [7]
  | GRev false => [27]
  | GFg c => penc 30 c
  | GBg c => penc 40 c
  | GOther p => [p]
  end.
Definition known (p : N) : Prop := In p [0; 1; 2; 22; 4; 24; 7; 27] \/ 30 <= p <= 49 \/ 90 <= p <= 107.
Definition gok (g : sgrcmd) : Prop :=
  match g with
  | GFg c | GBg c => pok c
  | GOther p => ~ known p
  | _ => True
  end.
Definition gapply (v : av) (g : sgrcmd) : av :=
  match g with
  | GReset => plain
  | GBold b => mkV (v_fg v) (v_bg v) (true, b) (v_ul v) (v_rev v)
  | GFaint => mkV (v_fg v) (v_bg v) (true, false) (v_ul v) (v_rev v)
  | GUl b => mkV (v_fg v) (v_bg v) (v_bold v) (true, b) (v_rev v)
  | GRev b => mkV (v_fg v) (v_bg v) (v_bold v) (v_ul v) (true, b)
  | GFg c => mkV (true, cval (pmean c)) (v_bg v) (v_bold v) (v_ul v) (v_rev v)
  | GBg c => mkV (v_fg v) (true, cval (pmean c)) (v_bold v) (v_ul v) (v_rev v)
  | GOther _ => v
  end.

(** A CSI parameter string: decimal numbers (no digits: 0) between semicolons. *)
Definition isdig (c : N) : Prop := 48 <= c <= 57.
Definition dval (ds : list N) : N := fold_left (fun v c => 10 * v + (c - 48)) ds 0.
Fixpoint pjoin (ds : list (list N)) : list N :=
  match ds with
  | [] => []
  | [d] => d
  | d :: r => d ++ 59 :: pjoin r
  end.
(** the empty string has no parameters *)
Definition pvals (ds : list (list N)) : list N := match ds with [[]] => [] | _ => map dval ds end.

(** A terminal that obeys SGR; what it shows text as: foreground, background, bold, underline. *)
Definition shown (v : av) : N * N * bool * bool := (snd (v_fg v), snd (v_bg v), snd (v_bold v), snd (v_ul v)).
Fixpoint screen (term : av) (es : list pevent) : list (list N * (N * N * bool * bool)) :=
  match es with
  | [] => []
  | EText t :: es => (t, shown term) :: screen term es
  | ESgr ps :: es => match sgr ps with None => [] | Some a => screen (over term (view a)) es end
  end.
(** What was asked for. *)
Fixpoint asked (w : av) (os : list pop) : list (list N * (N * N * bool * bool)) :=
  match os with
  | [] => []
  | OSet a :: os => asked (over w (view a)) os
  | OPrint t :: os => (match t with [] => [] | _ => [(t, shown w)] end) ++ asked w os
  | OPrintAttr a t :: os => (match t with [] => [] | _ => [(t, shown (over w (view a)))] end) ++ asked w os
  end.
(** Colors from the 16 color palette or default; and not bold or underlined while both colors are default. *)
Definition palette (c : N) : Prop := c < 16 \/ c = 231.
Definition calm (v : av) : Prop :=
  palette (snd (v_fg v)) /\ palette (snd (v_bg v)) /\ (snd (v_fg v) = 231 -> snd (v_bg v) = 231 -> snd (v_bold v) = false /\ snd (v_ul v) = false).
Fixpoint calms (w : av) (os : list pop) : Prop :=
  match os with
  | [] => True
  | OSet a :: os => calm (over w (view a)) /\ calms (over w (view a)) os
  | OPrint _ :: os => calms w os
  | OPrintAttr a _ :: os => calm (over w (view a)) /\ calms w os
  end.
