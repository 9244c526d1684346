(** What is claimed of the popup lists (TlModel.v), in terms of the rows of the list: the text of an entry, what is shown of it
    and its number in the list it comes from. *)
From Verif Require Import Base TlModel.
From Coq Require Import Sorted.
Local Open Scope Z_scope.

Record row := mkRow { r_entry : bytes; r_item : item; r_number : Z }.

(** The rows the list has, shown or not *)
Definition table (s : st) (L : list row) : Prop :=
  t_ocount s = Z.of_nat (length L) /\ (exists rest, t_entries s = map r_entry L ++ rest) /\ t_items s = map r_item L /\
  match t_infos s with
  | Some l => exists rest, l = map r_number L ++ rest
  | None => map r_number L = zseq 0 (length L)
  end.
(** Each row is the entry its number says, and they are in the order of the numbers. *)
Definition linked (s : st) (L : list row) : Prop :=
  Forall (fun r => 0 <= r_number r /\ zth (t_ext s) (r_number r) = Some (r_entry r)) L /\
  StronglySorted (fun a b => r_number a < r_number b) L.

Section Find.
Variable hit : bytes -> bytes -> bool.
(** The rows that match *)
Definition passing (needle : bytes) (L : list row) : list row := filter (fun r => matches hit needle (r_item r)) L.
(** The rows shown: with a filter only those that match *)
Definition shown (s : st) (L : list row) : list row := match t_fstr s with [] => L | f => passing f L end.
Definition selected (s : st) (L : list row) : option row := zth (shown s L) (t_index s).

(** Deleting the entry with the number [x]: it is gone, and those behind it have moved down by one. *)
Definition without (x : Z) (L : list row) : list row :=
  map (fun r => mkRow (r_entry r) (r_item r) (if x <? r_number r then r_number r - 1 else r_number r))
    (filter (fun r => negb (r_number r =? x)) L).

(** The selection is one of the rows, and it is one of those in the window. *)
Definition valid (c : cfg) (s : st) : Prop :=
  (if t_count s =? 0 then t_index s = 0 else 0 <= t_index s < t_count s) /\
  0 <= t_top s <= Z.max 0 (t_count s - c_vis c) /\ t_top s <= t_index s < t_top s + c_vis c.

(** The keys that do harm: Delete on the only row that passes the filter, the wheel when no row does, Page Up in a list shorter
    than the scroll offset; and clearing the filter after something was deleted with the filter on ([deleted]). *)
Definition harmless (c : cfg) (k : key) (s : st) : Prop :=
  match k with
  | k_delete _ => t_fstr s = [] \/ t_count s <> 1
  | k_wheeldown n => 0 <= n /\ (0 < t_count s \/ n = 0)
  | k_wheelup n => 0 <= n
  | k_pgup => t_index s = 0 \/ scroll_offset c <= Z.min (t_count s) (c_vis c)
  | k_mouse _ _ _ _ _ speed => 0 <= speed
  | _ => True
  end.
Section Begins.
Variable begins : bytes -> bytes -> bool.
Variable whole : bytes -> Prop.
(** And the search string does not end in the middle of a character. *)
Definition careful (c : cfg) (e : env) (k : key) (s : st) (deleted : bool) : Prop :=
  (t_fstr s <> [] -> whole (t_fstr s)) /\
  (deleted = true -> k <> k_togglefilter /\ forall p, k = k_backspace p -> firstn p (t_needle s) <> []) /\
  forall m, settle hit begins c e k (w_ign false s) = Some m -> harmless c k m.

(** The states of a list: shown for the first time, and after any keys. *)
Inductive reach (c : cfg) : st -> bool -> Prop :=
| R_start L irest infos from index filt bar clip s :
    (c_win c = true -> c_hist c = true) ->
    Forall (fun r => 0 <= r_number r /\ zth from (r_number r) = Some (r_entry r)) L ->
    StronglySorted (fun a b => r_number a < r_number b) L ->
    match infos with Some l => l = map r_number L ++ irest | None => map r_number L = zseq 0 (length L) end ->
    Z.of_nat (length L) * c_vis c < 2147483648 ->
    activate c (map r_entry L) (map r_item L) infos from index filt bar clip = Some s ->
    reach c s false
| R_key s deleted e k s' :
    reach c s deleted -> careful c e k s deleted -> on_input hit begins c e k s = Go s' ->
    reach c s' (negb (is_nil (t_fstr s')) && (deleted || (t_ocount s' <? t_ocount s))).
End Begins.
End Find.
