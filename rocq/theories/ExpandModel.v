(** clink/lib/src/history_db.cpp 103-135: where history expansion is inhibited. *)
From Verif Require Import Base.
Open Scope N_scope.

(** 119-125; [line] up to its NUL *)
Fixpoint quote_scan (line : list N) (i pos : nat) (in_quote : N) : N :=
  if (i <? pos)%nat then
    match line with
    | [] => in_quote
    | c :: line => quote_scan line (S i) pos (if (c =? 39) || (c =? 34) then if c =? in_quote then 0 else c else in_quote)
    end
  else in_quote.
(** 105-135; [None]: assert(setting > 0) fails *)
Definition expand_control (setting : Z) (line : list N) (marker_pos : nat) : option bool :=
  if (setting <=? 1)%Z then if (0 <? setting)%Z then Some (setting <=? 0)%Z else None
  else
    let in_quote := quote_scan line 0 marker_pos 0 in
    Some (if (setting =? 2)%Z then in_quote =? 39
          else if (setting =? 3)%Z then in_quote =? 34
          else if (setting =? 4)%Z then (in_quote =? 34) || (in_quote =? 39)
          else false).
