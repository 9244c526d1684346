(** What is claimed about moving the selection in the list of clink-select-complete. *)
From Verif Require Import Base SmallModel SelModel.
Local Open Scope Z_scope.

(** What is known of the layout and the input: the numbers stay in the ranges of a console, a horizontal list
    has no more columns than matches, and the mouse is inside the screen.  [h]: inserting the match may change the height
    of the line; after typing it is assumed not to (see [page_down_negative_refuted]). *)
Definition geom_ok (c : cfg) (g : geom) (n : Z) : Prop :=
  0 <= g_height g /\ 0 <= g_rows g < 32768 /\ l_rows (layout g n) < 65536 /\ (c_horiz c = true -> Z.max 1 (g_fit g) <= n) /\
  Forall (fun w => 0 <= w) (g_widths g) /\ 0 <= g_pad g /\ 1 <= Z.of_nat (length (g_widths g)) <= Z.max 1 (g_fit g).
Definition height_ok (h : option Z) : Prop := match h with Some x => 0 <= x | None => True end.
Definition input_ok (c : cfg) (s : st) (k : key) (h : option Z) : Prop :=
  height_ok h /\
  match k with
  | k_f1 (Some g) => geom_ok c g (l_count (s_lay s))
  | k_type n g => (0 < n -> geom_ok c g n) /\ h = None
  | k_wheelup n | k_wheeldown n => 0 <= n
  | k_mouse _ p0 _ _ speed => 0 <= p0 < g_screen (l_geom (s_lay s)) /\ 0 <= speed
  | _ => True
  end.

(** The states from the activation on, under any input and any resizing *)
Inductive reach (c : cfg) : st -> Prop :=
| r_activate g n x h s0 s : geom_ok c g n -> height_ok h -> activate c g n x h s0 = Some s -> reach c s
| r_input s k h s' : reach c s -> input_ok c s k h -> on_input c k h s = Go s' -> reach c s'
| r_resize s g : reach c s -> geom_ok c g (l_count (s_lay s)) -> reach c (on_resize c g s).

(** The states reached by keys alone, or with the mouse and F1 once the list is expanded, while the line does not get shorter
    and the window keeps its size *)
Definition calm (k : key) : bool := match k with k_mouse _ _ _ _ _ | k_f1 _ => false | _ => true end.
Inductive keyed (c : cfg) : st -> Prop :=
| k_activate g n x h s0 s : geom_ok c g n -> height_ok h -> activate c g n x h s0 = Some s -> keyed c s
| k_input s k h s' : keyed c s -> input_ok c s k h -> (calm k = false -> s_exp s = true) ->
    match h with Some x => g_height (l_geom (s_lay s)) <= x | None => True end ->
    on_input c k h s = Go s' -> keyed c s'.

(** The match [i] can be seen. *)
Definition seen (c : cfg) (s : st) (i : Z) : Prop :=
  exists row col, 0 <= row < s_disp s /\ 0 <= col < l_cols (s_lay s) /\ cell c s row col = Some i.

(** The arrow keys across the rows of a vertical list (the columns of a horizontal one) go through the matches in this order:
    line by line, where the line of [i] is [i mod m]. *)
Definition before (m i j : Z) : Prop := i mod m < j mod m \/ (i mod m = j mod m /\ i / m < j / m).
Definition is_last (m n i : Z) : Prop := forall j, 0 <= j < n -> j = i \/ before m j i.
Definition follows (m n i j : Z) : Prop :=
  before m i j /\ forall k, 0 <= k < n -> before m i k -> k = j \/ before m j k.
Definition lines (c : cfg) (s : st) : Z := if c_horiz c then l_cols (s_lay s) else l_rows (s_lay s).
Definition ahead (c : cfg) : key := if c_horiz c then k_down else k_right.
Definition back (c : cfg) : key := if c_horiz c then k_up else k_left.

(** Pressing a key again and again *)
Inductive presses (c : cfg) (k : key) : nat -> st -> st -> Prop :=
| p_none s : presses c k 0 s s
| p_more n s s1 s2 : on_input c k None s = Go s1 -> presses c k n s1 s2 -> presses c k (S n) s s2.

(** Where a column starts on the screen; the last one reaches to the right edge. *)
Fixpoint col_start (ws : list Z) (pad : Z) (col : nat) : Z :=
  match col, ws with
  | S i, w :: r => w + pad + col_start r pad i
  | _, _ => 0
  end.
Definition in_column (g : geom) (col : nat) (x : Z) : Prop :=
  (col < length (g_widths g))%nat /\ col_start (g_widths g) (g_pad g) col <= x /\
  x < (if (S col =? length (g_widths g))%nat then g_screen g
       else col_start (g_widths g) (g_pad g) col + nth col (g_widths g) 0).
