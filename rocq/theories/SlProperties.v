(** C108: what the suggestion list selects, shows and puts in the line; C109: what it draws. *)
From Verif Require Import Base SlModel.
Open Scope Z_scope.

Section Moving.
Variable ofs : Z.
Variable wrap : bool.
(** a list with rows on the screen, after it was drawn *)
Definition drawn_list (s : st) : Prop :=
  1 <= vis s <= cnt s /\ drawn s = vis s /\ -1 <= idx s < cnt s /\ 0 <= top s /\ on_top s = top s /\ on_idx s = idx s /\ prev s = idx s
  /\ (0 <= idx s -> top s <= idx s < top s + vis s).
Inductive event := Input (i : input) | Fewer (v : Z) | Edited | New (c v : Z) | Removed (n v : Z).
Definition after (s : st) (e : event) : st :=
  match e with
  | Input i => on_input ofs wrap s i
  | Fewer v => fewer_rows ofs s v
  | Edited => clear_index ofs s
  | New c v => new_list ofs s c v
  | Removed n v => removed ofs s n v
  end.
(** what can happen to a list that keeps rows on the screen, but for the wheel turned up with nothing selected, and a drag to above or below and beside the list *)
Definition can (s : st) (e : event) : Prop :=
  match e with
  | Input (WheelUp n) => 0 <= n /\ 0 <= idx s
  | Input (WheelDown n) => 0 <= n
  | Input (Drag row inside (Some v)) => 1 <= v /\ (inside = true \/ 0 <= row < drawn s)
  | Input _ => True
  | Fewer v => 1 <= v
  | Edited => True
  | New c v => 1 <= v <= c
  | Removed n v => 0 <= n < cnt s /\ 1 <= v /\ 0 <= idx s
  end.

Lemma so_range : forall s, 1 <= vis s -> 0 <= scroll_offset ofs s /\ (scroll_offset ofs s * 2 <= vis s - 1).
Proof.
  intros s V. unfold scroll_offset. destruct (ofs <=? 0) eqn:E; [lia|].
  assert (0 <= (vis s - 1) / 2 /\ (vis s - 1) / 2 * 2 <= vis s - 1) by lia. lia.
Qed.
Lemma set_top_fields : forall s t, idx (set_top s t) = idx s /\ cnt (set_top s t) = cnt s /\ vis (set_top s t) = vis s /\ drawn (set_top s t) = drawn s
  /\ ign (set_top s t) = ign s /\ top (set_top s t) = t /\ (t <> top s -> prev (set_top s t) = -1) /\ (t = top s -> set_top s t = s) /\ on_top (set_top s t) = on_top s /\ on_idx (set_top s t) = on_idx s.
Proof. intros s t. unfold set_top. destruct (t =? top s) eqn:E; cbn [idx top cnt vis drawn ign prev on_top on_idx]; intuition (try lia). Qed.
Lemma update_top_ok : forall s, 1 <= vis s <= cnt s -> drawn s = vis s -> -1 <= idx s < cnt s -> 0 <= top s ->
  idx (update_top ofs s) = idx s /\ cnt (update_top ofs s) = cnt s /\ vis (update_top ofs s) = vis s /\ drawn (update_top ofs s) = drawn s
  /\ 0 <= top (update_top ofs s) /\ (0 <= idx s -> top (update_top ofs s) <= idx s < top (update_top ofs s) + vis s).
Proof.
  intros s V D X T. unfold update_top. cbv zeta.
  set (s1 := if idx s <? top s then set_top s (Z.max 0 (idx s)) else if top s <? Z.max 0 (idx s - (Z.min (cnt s) (vis s) - 1)) then set_top s (Z.max 0 (idx s - (Z.min (cnt s) (vis s) - 1))) else s).
  assert (H : idx s1 = idx s /\ cnt s1 = cnt s /\ vis s1 = vis s /\ drawn s1 = drawn s /\ 0 <= top s1 /\ (0 <= idx s -> top s1 <= idx s < top s1 + vis s)).
  { unfold s1. destruct (idx s <? top s) eqn:A.
    - pose proof (set_top_fields s (Z.max 0 (idx s))) as F. lia.
    - destruct (top s <? Z.max 0 (idx s - (Z.min (cnt s) (vis s) - 1))) eqn:B; [|lia].
      pose proof (set_top_fields s (Z.max 0 (idx s - (Z.min (cnt s) (vis s) - 1)))) as F. lia. }
  clearbody s1. destruct H as (H1 & H2 & H3 & H4 & H5 & H6).
  destruct (ign s1); [lia|].
  destruct (0 <? scroll_offset ofs s1) eqn:P; [|lia].
  pose proof (so_range s1 ltac:(lia)) as R. set (so := scroll_offset ofs s1) in *. clearbody so.
  destruct (Z.max 0 (idx s - so) <? top s1) eqn:A.
  - pose proof (set_top_fields s1 (Z.max 0 (idx s - so))) as F. lia.
  - destruct (top s1 <? Z.min (Z.max 0 (cnt s1 - vis s1)) (idx s + so - drawn s1 + 1)) eqn:B; [|lia].
    pose proof (set_top_fields s1 (Z.min (Z.max 0 (cnt s1 - vis s1)) (idx s + so - drawn s1 + 1))) as F. lia.
Qed.
(** if something is to be drawn, the list is then drawn *)
Lemma display_ok : forall f s, 1 <= vis s <= cnt s -> -1 <= idx s < cnt s -> 0 <= top s -> f = true \/ prev s <> idx s \/ drawn_list s ->
  drawn_list (update_display ofs f s) /\ idx (update_display ofs f s) = idx s /\ cnt (update_display ofs f s) = cnt s /\ vis (update_display ofs f s) = vis s.
Proof.
  intros f s V X T C. unfold update_display. destruct (f || negb (prev s =? idx s)) eqn:E.
  - set (s1 := mkS (idx s) (top s) (cnt s) (vis s) (Z.min (vis s) (cnt s)) (ign s) (prev s) (on_top s) (on_idx s)).
    assert (E1 : vis s1 = vis s /\ cnt s1 = cnt s /\ drawn s1 = vis s1 /\ idx s1 = idx s /\ top s1 = top s) by (unfold s1; cbn [vis cnt drawn idx top]; lia).
    clearbody s1. pose proof (update_top_ok s1 ltac:(lia) ltac:(lia) ltac:(lia) ltac:(lia)) as U.
    unfold drawn_list. cbn [vis cnt drawn idx top prev on_top on_idx]. lia.
  - apply orb_false_elim in E. destruct E as [-> E]. destruct C as [C | [C | C]]; [discriminate | lia | tauto].
Qed.
Definition dl_facts s : drawn_list s -> _ := fun H => H.

Lemma not_drawn_cases : forall s t, drawn_list s -> t = top s \/ prev (set_top s t) = -1.
Proof. intros s t H. pose proof (set_top_fields s t) as F. destruct (Z.eq_dec t (top s)); [left; assumption | right; apply F; assumption]. Qed.
Lemma mouse_ok : forall s row revert, 1 <= vis s <= cnt s -> drawn s = vis s -> 0 <= top s -> 0 <= row -> 0 <= revert ->
  ((prev s = idx s /\ on_top s = top s /\ on_idx s = idx s /\ (0 <= idx s -> top s <= idx s < top s + vis s) /\ -1 <= idx s < cnt s) \/ prev s = -1) ->
  drawn_list (mouse_position ofs s row revert true) /\ idx (mouse_position ofs s row revert true) = Z.min row (cnt s - 1).
Proof.
  intros s row revert V D T R RV C. unfold mouse_position, navigated.
  set (s1 := set_ign (set_idx s row) true).
  assert (E1 : idx s1 = row /\ cnt s1 = cnt s /\ vis s1 = vis s /\ drawn s1 = drawn s /\ top s1 = top s /\ prev s1 = prev s /\ on_top s1 = on_top s /\ on_idx s1 = on_idx s) by (repeat split).
  clearbody s1. destruct E1 as (E1 & E2 & E3 & E4 & E5 & E6 & E7 & E8).
  destruct (cnt s1 <=? idx s1) eqn:B.
  - pose proof (set_top_fields s1 (Z.max revert (cnt s1 - (drawn s1 - 1)))) as F.
    set (s2 := set_top s1 (Z.max revert (cnt s1 - (drawn s1 - 1)))) in *.
    set (s3 := set_idx s2 (cnt s1 - 1)).
    assert (G : idx s3 = cnt s1 - 1 /\ cnt s3 = cnt s2 /\ vis s3 = vis s2 /\ drawn s3 = drawn s2 /\ top s3 = top s2 /\ prev s3 = prev s2 /\ on_top s3 = on_top s2 /\ on_idx s3 = on_idx s2) by (repeat split).
    clearbody s3.
    assert (Z0 : false = true \/ prev s3 <> idx s3 \/ drawn_list s3).
    { destruct (Z.eq_dec (prev s3) (idx s3)) as [Q | Q]; [right; right | right; left; assumption].
      assert (Q2 : prev s2 <> -1) by lia.
      destruct (Z.eq_dec (Z.max revert (cnt s1 - (drawn s1 - 1))) (top s1)) as [W | W]; [|exfalso; apply Q2, F, W].
      assert (W2 : s2 = s1) by (apply F, W). rewrite W2 in *. unfold drawn_list. lia. }
    pose proof (display_ok false s3 ltac:(lia) ltac:(lia) ltac:(lia) Z0) as (P1 & P2 & P3 & P4). split; [exact P1 | lia].
  - assert (Z0 : false = true \/ prev s1 <> idx s1 \/ drawn_list s1).
    { destruct (Z.eq_dec (prev s1) (idx s1)) as [Q | Q]; [right; right | right; left; assumption]. unfold drawn_list. lia. }
    pose proof (display_ok false s1 ltac:(lia) ltac:(lia) ltac:(lia) Z0) as (P1 & P2 & P3 & P4). split; [exact P1 | lia].
Qed.
(** moving the selection within the list *)
Lemma move_ok : forall s i, drawn_list s -> -1 <= i < cnt s ->
  drawn_list (navigated ofs (set_idx s i)) /\ idx (navigated ofs (set_idx s i)) = i /\ cnt (navigated ofs (set_idx s i)) = cnt s /\ vis (navigated ofs (set_idx s i)) = vis s.
Proof.
  intros s i H X. unfold navigated. pose proof (dl_facts s H) as (F1 & F2 & F3 & F4 & F5 & F6 & F7 & F8).
  assert (Z0 : false = true \/ prev (set_idx s i) <> idx (set_idx s i) \/ drawn_list (set_idx s i)).
  { destruct (Z.eq_dec i (idx s)) as [-> | Q]; [right; right; destruct s; exact H | right; left; cbn [set_idx prev idx]; lia]. }
  exact (display_ok false (set_idx s i) F1 X F4 Z0).
Qed.
Lemma ign_ok : forall s b, drawn_list s -> drawn_list (set_ign s b).
Proof. intros s b H. destruct s. exact H. Qed.
Lemma set_idx_same : forall s, set_idx s (idx s) = s.
Proof. intros []. reflexivity. Qed.

Lemma input_ok : forall s i, drawn_list s -> can s (Input i) -> drawn_list (on_input ofs wrap s i).
Proof.
  intros s0 i H0 C. unfold on_input. destruct (vis s0 <=? 0) eqn:V; [unfold drawn_list in H0; lia|].
  assert (H : drawn_list (set_ign s0 false)) by (apply ign_ok, H0).
  assert (C' : can (set_ign s0 false) (Input i)) by (destruct s0; exact C). clear C V H0.
  set (s := set_ign s0 false) in *. clearbody s. clear s0.
  pose proof (dl_facts s H) as (F1 & F2 & F3 & F4 & F5 & F6 & F7 & F8). cbv zeta.
  pose proof (so_range s ltac:(lia)) as SO. set (so := scroll_offset ofs s) in *. clearbody so.
  destruct i as [ | | | | row inside | row inside speed | n | n ].
  - destruct wrap.
    + destruct (idx s - 1 <? -1) eqn:A; apply move_ok; lia || assumption.
    + destruct (0 <=? idx s) eqn:A; [apply move_ok; lia || assumption|].
      rewrite <- (set_idx_same s) at 1. apply move_ok; lia || assumption.
  - destruct (cnt s <=? idx s + 1) eqn:A; [|apply move_ok; lia || assumption]. apply move_ok; [assumption|]. destruct wrap; lia.
  - destruct (0 <? idx s) eqn:A; [|assumption]. apply move_ok; [assumption|]. destruct (idx s <=? top s + so) eqn:B; lia.
  - destruct (idx s <? 0) eqn:A; [assumption|]. destruct (idx s <? cnt s - 1) eqn:B; [|assumption].
    apply move_ok; [assumption|]. destruct (idx s =? top s + (Z.min (cnt s) (vis s) - so) - 1) eqn:D; lia.
  - destruct ((0 <=? row) && (row <? drawn s)) eqn:A; [|assumption]. destruct inside; [|assumption].
    apply mouse_ok; lia.
  - destruct ((0 <=? row) && (row <? drawn s)) eqn:A.
    { destruct inside; [|assumption]. apply mouse_ok; lia. }
    destruct speed as [v|]; [|assumption]. cbn [can] in C'. destruct C' as [C1 [-> | C2]]; [|lia].
    destruct (row <? 0) eqn:B.
    + destruct (0 <? top s) eqn:D; [|assumption].
      pose proof (set_top_fields s (Z.max 0 (top s - v))) as F. set (s1 := set_top s (Z.max 0 (top s - v))) in *.
      apply mouse_ok; lia.
    + destruct (top s + drawn s <? cnt s) eqn:D; [|assumption].
      pose proof (set_top_fields s (Z.min (cnt s - drawn s) (top s + v))) as F. set (s1 := set_top s (Z.min (cnt s - drawn s) (top s + v))) in *.
      apply mouse_ok; lia.
  - cbn [can] in C'. destruct (idx s <? 0) eqn:A; [lia|].
    match goal with |- drawn_list (if ?c then _ else _) => destruct c eqn:B end.
    + cbn [set_idx idx] in B. replace (idx s - Z.min (idx s) n) with (idx s) by lia. rewrite set_idx_same. assumption.
    + apply move_ok; [assumption | lia].
  - cbn [can] in C'. match goal with |- drawn_list (if ?c then _ else _) => destruct c eqn:B end.
    + cbn [set_idx idx] in B. replace (idx s + Z.min (cnt s - 1 - idx s) n) with (idx s) by lia. rewrite set_idx_same. assumption.
    + apply move_ok; [assumption | lia].
Qed.
Lemma event_ok : forall s e, drawn_list s -> can s e -> drawn_list (after s e).
Proof.
  intros s e H C. pose proof (dl_facts s H) as (F1 & F2 & F3 & F4 & F5 & F6 & F7 & F8).
  destruct e as [i | v | | c v | n v]; cbn [after]; cbn [can] in C.
  - apply input_ok; assumption.
  - apply display_ok; cbn [vis cnt idx top]; lia || (left; reflexivity).
  - apply (move_ok s (-1)); [assumption | lia].
  - apply display_ok; cbn [vis cnt idx top]; lia || (left; reflexivity).
  - unfold removed. cbv zeta. destruct (cnt s - n <=? idx s) eqn:A; apply display_ok; cbn [vis cnt idx top]; lia || (left; reflexivity).
Qed.
(** a course of events, each of which can happen *)
Inductive course : st -> list event -> st -> Prop :=
| course_nil : forall s, course s [] s
| course_cons : forall s e l s', can s e -> course (after s e) l s' -> course s (e :: l) s'.

(** ** C108 *)
(** Whatever happens but the wheel with nothing selected and drags beside the list: nothing or an existing suggestion is selected, and it is
    among the rows shown, which are those the mouse is taken to point to. *)
Theorem selection_shown_partial : forall s l s', drawn_list s -> course s l s' ->
  (on_idx s' = idx s' /\ on_top s' = top s') /\ -1 <= idx s' < cnt s' /\ (0 <= idx s' -> on_top s' <= idx s' < on_top s' + vis s').
Proof.
  intros s l s' H C. assert (D : drawn_list s').
  { induction C as [s | s e l s' K C IH]; [assumption | apply IH, event_ok; assumption]. }
  unfold drawn_list in D. lia.
Qed.

(** With nothing selected, n times Down selects the n-th suggestion, and then n times Up selects nothing again. *)
Fixpoint times (n : nat) (i : input) (s : st) : st := match n with O => s | S n' => times n' i (on_input ofs wrap s i) end.
Lemma down_one : forall s, drawn_list s -> idx s + 1 < cnt s -> drawn_list (on_input ofs wrap s Down) /\ idx (on_input ofs wrap s Down) = idx s + 1 /\ cnt (on_input ofs wrap s Down) = cnt s.
Proof.
  intros s H A. split; [apply input_ok; [assumption | exact Logic.I]|]. pose proof H as F; unfold drawn_list in F. unfold on_input.
  destruct (vis s <=? 0) eqn:B; [lia|]. cbv zeta.
  assert (E : idx (set_ign s false) = idx s /\ cnt (set_ign s false) = cnt s) by (split; reflexivity).
  destruct (cnt (set_ign s false) <=? idx (set_ign s false) + 1) eqn:D; [lia|].
  pose proof (move_ok (set_ign s false) (idx (set_ign s false) + 1) (ign_ok _ _ H) ltac:(lia)) as (M1 & M2 & M3 & M4). rewrite M2, M3. split; reflexivity.
Qed.
Lemma up_one : forall s, drawn_list s -> 0 <= idx s -> drawn_list (on_input ofs wrap s Up) /\ idx (on_input ofs wrap s Up) = idx s - 1 /\ cnt (on_input ofs wrap s Up) = cnt s.
Proof.
  intros s H A. split; [apply input_ok; [assumption | exact Logic.I]|]. pose proof H as F; unfold drawn_list in F. unfold on_input.
  destruct (vis s <=? 0) eqn:B; [lia|]. cbv zeta.
  assert (E : idx (set_ign s false) = idx s /\ cnt (set_ign s false) = cnt s) by (split; reflexivity).
  assert (M : idx (navigated ofs (set_idx (set_ign s false) (idx (set_ign s false) - 1))) = idx s - 1 /\ cnt (navigated ofs (set_idx (set_ign s false) (idx (set_ign s false) - 1))) = cnt s).
  { pose proof (move_ok (set_ign s false) (idx (set_ign s false) - 1) (ign_ok _ _ H) ltac:(lia)) as (M1 & M2 & M3 & M4). rewrite M2, M3. split; reflexivity. }
  destruct wrap.
  - destruct (idx (set_ign s false) - 1 <? -1) eqn:D; [lia | exact M].
  - destruct (0 <=? idx (set_ign s false)) eqn:D; [exact M | lia].
Qed.
Lemma downs : forall n s, drawn_list s -> idx s + Z.of_nat n < cnt s -> drawn_list (times n Down s) /\ idx (times n Down s) = idx s + Z.of_nat n /\ cnt (times n Down s) = cnt s.
Proof.
  induction n as [|n IH]; intros s H A; cbn [times]; [split; [assumption | lia]|].
  destruct (down_one s H ltac:(lia)) as (D1 & D2 & D3). destruct (IH _ D1 ltac:(lia)) as (E1 & E2 & E3). split; [assumption | lia].
Qed.
Lemma ups : forall n s, drawn_list s -> Z.of_nat n <= idx s + 1 -> drawn_list (times n Up s) /\ idx (times n Up s) = idx s - Z.of_nat n.
Proof.
  induction n as [|n IH]; intros s H A; cbn [times]; [split; [assumption | lia]|].
  destruct (up_one s H ltac:(lia)) as (D1 & D2 & D3). destruct (IH _ D1 ltac:(lia)) as (E1 & E2). split; [assumption | lia].
Qed.
Theorem down_and_up : forall s n, drawn_list s -> idx s = -1 -> Z.of_nat n <= cnt s ->
  idx (times n Down s) = Z.of_nat n - 1 /\ idx (times n Up (times n Down s)) = -1.
Proof.
  intros s n H I0 B. destruct (downs n s H ltac:(lia)) as (D1 & D2 & D3). split; [lia|].
  destruct (ups n _ D1 ltac:(lia)) as (U1 & U2). lia.
Qed.
(** At the end, Down wraps around to nothing or stays, as menu-complete-wraparound says; and so does Up with nothing selected. *)
Theorem at_the_ends : forall s, drawn_list s ->
  (idx s = cnt s - 1 -> idx (on_input ofs wrap s Down) = if wrap then -1 else cnt s - 1) /\ (idx s = -1 -> idx (on_input ofs wrap s Up) = if wrap then cnt s - 1 else -1).
Proof.
  intros s H. pose proof H as F; unfold drawn_list in F. pose proof (ign_ok s false H) as H'. set (t := set_ign s false) in *.
  assert (E : idx t = idx s /\ cnt t = cnt s) by (split; reflexivity). unfold on_input. fold t. clearbody t. cbv zeta.
  destruct (vis s <=? 0) eqn:B; [lia|]. split; intros I0.
  - destruct (cnt t <=? idx t + 1) eqn:D; [|lia].
    pose proof (move_ok t (if wrap then -1 else cnt t - 1) H' ltac:(destruct wrap; lia)) as (M1 & M2 & M3 & M4). rewrite M2. destruct wrap; lia.
  - destruct wrap.
    + destruct (idx t - 1 <? -1) eqn:D; [|lia]. pose proof (move_ok t (cnt t - 1) H' ltac:(lia)) as (M1 & M2 & M3 & M4). lia.
    + destruct (0 <=? idx t) eqn:D; [lia|]. pose proof (move_ok t (idx t) H' ltac:(lia)) as (M1 & M2 & M3 & M4). rewrite set_idx_same in M2. lia.
Qed.
(** Page Up moves up unless the first suggestion or nothing is selected; and without a scroll offset Page Down moves down unless at the end. *)
Theorem page_up_moves : forall s, drawn_list s -> 0 < idx s -> 0 <= idx (on_input ofs wrap s PageUp) < idx s.
Proof.
  intros s H A. pose proof H as F; unfold drawn_list in F. pose proof (ign_ok s false H) as H'. set (t := set_ign s false) in *.
  assert (E : idx t = idx s /\ cnt t = cnt s /\ vis t = vis s /\ top t = top s) by (repeat split). unfold on_input. fold t. clearbody t. cbv zeta.
  destruct (vis s <=? 0) eqn:B; [lia|]. destruct (0 <? idx t) eqn:D; [|lia].
  pose proof (so_range t ltac:(lia)) as SO. set (so := scroll_offset ofs t) in *. clearbody so.
  pose proof H' as F'; unfold drawn_list in F'.
  set (x := Z.max 0 (if idx t <=? top t + so then idx t - (Z.min (cnt t) (vis t) - so) else top t + so)).
  assert (X : 0 <= x < idx t) by (unfold x; destruct (idx t <=? top t + so) eqn:G; lia). clearbody x.
  pose proof (move_ok t x H' ltac:(lia)) as (M1 & M2 & M3 & M4). lia.
Qed.
Theorem page_down_moves_partial : forall s, drawn_list s -> ofs <= 0 -> 0 <= idx s < cnt s - 1 -> idx s < idx (on_input ofs wrap s PageDown) < cnt s.
Proof.
  intros s H O A. pose proof H as F; unfold drawn_list in F. pose proof (ign_ok s false H) as H'. set (t := set_ign s false) in *.
  assert (E : idx t = idx s /\ cnt t = cnt s /\ vis t = vis s /\ top t = top s) by (repeat split). unfold on_input. fold t. clearbody t. cbv zeta.
  destruct (vis s <=? 0) eqn:B; [lia|]. destruct (idx t <? 0) eqn:D; [lia|]. destruct (idx t <? cnt t - 1) eqn:D2; [|lia].
  assert (SO : scroll_offset ofs t = 0) by (unfold scroll_offset; destruct (ofs <=? 0) eqn:Q; [reflexivity | lia]). rewrite SO.
  pose proof H' as F'; unfold drawn_list in F'.
  set (x := Z.min (cnt t - 1) (if idx t =? top t + (Z.min (cnt t) (vis t) - 0) - 1 then idx t + (Z.min (cnt t) (vis t) - 0) else top t + (Z.min (cnt t) (vis t) - 0) - 1)).
  assert (X : idx t < x < cnt t) by (unfold x; destruct (idx t =? top t + (Z.min (cnt t) (vis t) - 0) - 1) eqn:G; lia). clearbody x.
  pose proof (move_ok t x H' ltac:(lia)) as (M1 & M2 & M3 & M4). lia.
Qed.
(** Page Down selects the last suggestion shown if one above it is selected, and with nothing selected it does nothing. *)
Theorem page_down_to_last_partial : forall s, drawn_list s -> ofs <= 0 ->
  (0 <= idx s < on_top s + vis s - 1 -> on_top s + vis s <= cnt s -> idx (on_input ofs wrap s PageDown) = on_top s + vis s - 1) /\ (idx s = -1 -> idx (on_input ofs wrap s PageDown) = -1).
Proof.
  intros s H O. pose proof H as F; unfold drawn_list in F. pose proof (ign_ok s false H) as H'. set (t := set_ign s false) in *.
  assert (E : idx t = idx s /\ cnt t = cnt s /\ vis t = vis s /\ top t = top s) by (repeat split). unfold on_input. fold t. clearbody t. cbv zeta.
  destruct (vis s <=? 0) eqn:B; [lia|].
  assert (SO : scroll_offset ofs t = 0) by (unfold scroll_offset; destruct (ofs <=? 0) eqn:Q; [reflexivity | lia]). rewrite SO. split.
  - intros A L. destruct (idx t <? 0) eqn:D; [lia|]. destruct (idx t <? cnt t - 1) eqn:D2; [|lia].
    set (x := Z.min (cnt t - 1) (if idx t =? top t + (Z.min (cnt t) (vis t) - 0) - 1 then idx t + (Z.min (cnt t) (vis t) - 0) else top t + (Z.min (cnt t) (vis t) - 0) - 1)).
    assert (X : x = on_top s + vis s - 1) by (unfold x; destruct (idx t =? top t + (Z.min (cnt t) (vis t) - 0) - 1) eqn:G; lia). clearbody x.
    pose proof (move_ok t x H' ltac:(lia)) as (M1 & M2 & M3 & M4). lia.
  - intros A. destruct (idx t <? 0) eqn:D; lia.
Qed.
(** Dragging to below the list selects the suggestion after those shown, if there is one; dragging to above it one that is before those shown. *)
Theorem drag_beyond : forall s row v, drawn_list s -> 1 <= v ->
  (vis s <= row -> on_top s + vis s < cnt s -> idx (on_input ofs wrap s (Drag row true (Some v))) = on_top s + vis s) /\
  (row < 0 -> 0 < on_top s < cnt s -> idx (on_input ofs wrap s (Drag row true (Some v))) = Z.max 0 (on_top s - v)).
Proof.
  intros s row v H V. pose proof H as F; unfold drawn_list in F. pose proof (ign_ok s false H) as H'. set (t := set_ign s false) in *.
  assert (E : idx t = idx s /\ cnt t = cnt s /\ vis t = vis s /\ top t = top s) by (repeat split). unfold on_input. fold t. clearbody t. cbv zeta.
  destruct (vis s <=? 0) eqn:B; [lia|]. pose proof H' as F'; unfold drawn_list in F'. split; intros A1 A2.
  - destruct ((0 <=? row) && (row <? drawn t)) eqn:Q; [lia|]. destruct (row <? 0) eqn:Q2; [lia|]. destruct (top t + drawn t <? cnt t) eqn:Q3; [|lia].
    pose proof (set_top_fields t (Z.min (cnt t - drawn t) (top t + v))) as G. set (s1 := set_top t (Z.min (cnt t - drawn t) (top t + v))) in *.
    assert (M : idx (mouse_position ofs s1 (top t + drawn t) (top t) true) = Z.min (top t + drawn t) (cnt s1 - 1)) by (apply mouse_ok; lia). lia.
  - destruct ((0 <=? row) && (row <? drawn t)) eqn:Q; [lia|]. destruct (row <? 0) eqn:Q2; [|lia]. destruct (0 <? top t) eqn:Q3; [|lia].
    pose proof (set_top_fields t (Z.max 0 (top t - v))) as G. set (s1 := set_top t (Z.max 0 (top t - v))) in *.
    assert (M : idx (mouse_position ofs s1 (top s1) (top t) true) = Z.min (top s1) (cnt s1 - 1)) by (apply mouse_ok; lia). lia.
Qed.
(** When the line is edited or there are new suggestions, nothing is selected; removing one selects the one after it, or the last. *)
Theorem selection_given_up : forall s c v n, drawn_list s ->
  idx (clear_index ofs s) = -1 /\ (1 <= v <= c -> idx (new_list ofs s c v) = -1) /\ (0 <= n < cnt s -> 1 <= v -> 0 <= idx s -> idx (removed ofs s n v) = Z.min (idx s) (cnt s - n - 1)).
Proof.
  intros s c v n H. pose proof H as F; unfold drawn_list in F. split; [|split].
  - apply (move_ok s (-1)); [assumption | lia].
  - intros V. unfold new_list. match goal with |- idx (update_display _ _ ?x) = _ => assert (D : idx (update_display ofs true x) = idx x) by (apply display_ok; cbn [vis cnt idx top]; lia || (left; reflexivity)) end. exact D.
  - intros V1 V2 V3. unfold removed. cbv zeta. match goal with |- idx (update_display _ _ ?x) = _ => assert (D : idx (update_display ofs true x) = idx x) end.
    { apply display_ok; cbn [vis cnt idx top]; destruct (cnt s - n <=? idx s) eqn:A; lia || (left; reflexivity). }
    rewrite D. cbn [idx]. destruct (cnt s - n <=? idx s) eqn:A; lia.
Qed.
End Moving.

(** ** the mouse *)
(** what the rows of the list show: the suggestions from [t] on, the selected one marked and followed by its tooltip if it has one *)
Definition rows_shown (tips : Z -> bool) (index t : Z) (n : nat) : list cell :=
  flat_map (fun k => let i := t + Z.of_nat k in Item i (i =? index) :: (if (i =? index) && tips i then [Tip i] else [])) (seq 0 n).
Definition screen (tips : Z -> bool) (s : st) : list cell := rows_shown tips (on_idx s) (on_top s) (Z.to_nat (Z.min (vis s) (cnt s - on_top s))).

Lemma rows_before : forall tips index t m k i b, (index < t + Z.of_nat k \/ t + Z.of_nat k + Z.of_nat m <= index \/ tips index = false) ->
  forall r, nth_error (flat_map (fun k => let i := t + Z.of_nat k in Item i (i =? index) :: (if (i =? index) && tips i then [Tip i] else [])) (seq k m)) r = Some (Item i b) -> i = t + Z.of_nat k + Z.of_nat r /\ (r < m)%nat.
Proof.
  intros tips index t m. induction m as [|m IH]; intros k i b C r H; [destruct r; discriminate|].
  cbn [seq flat_map] in H. cbv zeta in H.
  assert (E : (t + Z.of_nat k =? index) && tips (t + Z.of_nat k) = false).
  { destruct (t + Z.of_nat k =? index) eqn:E; [|reflexivity]. apply Z.eqb_eq in E. rewrite E. destruct C as [C | [C | C]]; [lia | lia | rewrite C; reflexivity]. }
  rewrite E in H. cbn [app] in H. destruct r as [|r]; cbn [nth_error] in H.
  - injection H as <- _. lia.
  - apply IH in H; [lia|]. destruct C as [C | [C | C]]; [left; lia | right; left; lia | right; right; assumption].
Qed.
(** A click on a suggestion selects it, unless it is below a tooltip. *)
Theorem click_selects_partial : forall ofs wrap tips s r i b, drawn_list s ->
  (idx s < 0 \/ tips (idx s) = false \/ Z.of_nat r <= idx s - top s) ->
  nth_error (screen tips s) r = Some (Item i b) -> idx (on_input ofs wrap s (Click (Z.of_nat r) true)) = i.
Proof.
  intros ofs wrap tips s r i b H C E. pose proof H as F; unfold drawn_list in F.
  destruct F as (F1 & F2 & F3 & F4 & F5 & F6 & F7 & F8). unfold screen in E. rewrite F5, F6 in E.
  set (n := Z.to_nat (Z.min (vis s) (cnt s - top s))) in *.
  assert (NN : Z.of_nat n <= vis s /\ Z.of_nat n <= Z.max 0 (cnt s - top s)) by (unfold n; lia). clearbody n.
  assert (Q : i = top s + Z.of_nat r /\ (r < n)%nat).
  { assert (G : (idx s < 0 \/ tips (idx s) = false) \/ (0 <= idx s /\ Z.of_nat r <= idx s - top s)) by (destruct (Z.ltb_spec (idx s) 0); tauto). clear C. destruct G as [C | [C0 C]].
    - unfold rows_shown in E. apply (rows_before tips (idx s) (top s) n 0%nat i b) in E; [lia|]. destruct C as [C | C]; [left; lia | right; right; assumption].
    - (* above the tooltip: the rows up to the selected one, and the rest *)
      unfold rows_shown in E. destruct (Nat.le_gt_cases n r) as [L | L].
      + exfalso. assert (L2 : Z.of_nat n <= idx s - top s) by lia.
        apply (rows_before tips (idx s) (top s) n 0%nat i b) in E; [lia | right; left; lia].
      + replace n with (r + (n - r))%nat in E by lia. rewrite seq_app, flat_map_app in E.
        assert (LEN : length (flat_map (fun k0 : nat => let i0 := top s + Z.of_nat k0 in Item i0 (i0 =? idx s) :: (if (i0 =? idx s) && tips i0 then [Tip i0] else [])) (seq 0 r)) = r).
        { assert (W : forall m a, top s + Z.of_nat a + Z.of_nat m <= idx s -> length (flat_map (fun k0 : nat => let i0 := top s + Z.of_nat k0 in Item i0 (i0 =? idx s) :: (if (i0 =? idx s) && tips i0 then [Tip i0] else [])) (seq a m)) = m).
          { induction m as [|m IH]; intros a W; [reflexivity|]. cbn [seq flat_map]. cbv zeta. assert (W2 : (top s + Z.of_nat a =? idx s) = false) by lia. rewrite W2. cbn [andb app length]. f_equal. apply IH. lia. }
          apply W. lia. }
        cbv zeta in LEN. rewrite nth_error_app2 in E by (rewrite LEN; apply Nat.le_refl). rewrite LEN, Nat.sub_diag in E. destruct (n - r)%nat as [|q] eqn:D; [lia|].
        cbn [seq flat_map] in E. cbv zeta in E. cbn [app nth_error Nat.add] in E. injection E as <- _. lia. }
  destruct Q as [-> Q]. unfold on_input. destruct (vis s <=? 0) eqn:V; [lia|]. cbv zeta.
  pose proof (ign_ok s false H) as H'. set (t := set_ign s false) in *.
  assert (E' : cnt t = cnt s /\ vis t = vis s /\ top t = top s) by (repeat split). clearbody t. pose proof H' as F'; unfold drawn_list in F'.
  destruct ((0 <=? Z.of_nat r) && (Z.of_nat r <? drawn t)) eqn:B; [|lia].
  assert (M : idx (mouse_position ofs t (Z.of_nat r + top t) (top t) true) = Z.min (Z.of_nat r + top t) (cnt t - 1)) by (apply mouse_ok; lia). lia.
Qed.
(** Below the tooltip of the selected suggestion a click selects the suggestion after the one clicked. *)
Theorem click_selects_refuted : exists ofs wrap tips s r i b, drawn_list s /\ nth_error (screen tips s) r = Some (Item i b) /\ idx (on_input ofs wrap s (Click (Z.of_nat r) true)) = i + 1.
Proof.
  exists 3, false, (fun _ => true), (mkS 0 0 3 3 3 false 0 0 0), 2%nat, 1, false. split; [unfold drawn_list; cbn; lia | split; reflexivity].
Qed.
(** With nothing selected, turning the wheel up once makes the list forget the next Down: it has to be pressed twice to select the first suggestion. *)
Theorem wheel_up_refuted : exists ofs wrap s, drawn_list s /\ idx s = -1 /\ idx (on_input ofs wrap s (WheelUp 1)) = -2 /\
  idx (on_input ofs wrap (on_input ofs wrap s (WheelUp 1)) Down) = -1 /\ idx (on_input ofs wrap (on_input ofs wrap (on_input ofs wrap s (WheelUp 1)) Down) Down) = 0.
Proof.
  exists 3, false, (mkS (-1) 0 5 5 5 false (-1) 0 (-1)). split; [unfold drawn_list; cbn; lia | vm_compute; repeat split].
Qed.
(** With the scroll offset that is the default, Page Down can move the selection up. *)
Theorem page_down_refuted : exists wrap s, drawn_list s /\ idx s = 8 /\ cnt s = 10 /\ idx (on_input 3 wrap s PageDown) = 6.
Proof. exists false, (mkS 8 0 10 10 10 false 8 0 8). split; [unfold drawn_list; cbn; lia | repeat split]. Qed.
(** A drag to above the list and beside it moves the list without drawing it: a click then selects another suggestion than is shown there. *)
Theorem drag_beside_refuted : exists ofs wrap s r i b,
  drawn_list s /\ let s' := on_input ofs wrap s (Drag (-1) false (Some 1)) in
  nth_error (screen (fun _ => false) s') r = Some (Item i b) /\ idx (on_input ofs wrap s' (Click (Z.of_nat r) true)) <> i.
Proof.
  exists 0, false, (mkS 12 8 20 5 5 false 12 8 12), 1%nat, 9, false. split; [unfold drawn_list; cbn; lia|]. vm_compute. split; [reflexivity | discriminate].
Qed.

(** ** the line *)
Definition applied (l : list sug) (typed : list N) (i : Z) : list N :=
  if i <? 0 then typed else match nth_error l (Z.to_nat i) with Some g => firstn (g_off g) typed ++ g_text g | None => typed end.
(** However one moves in the list, the line is what was typed with the selected suggestion in it, and with nothing selected it is what was typed. *)
Theorem line_of_selection : forall l typed is i, b_text (fold_left (fun b j => apply_suggestion l j b) (is ++ [i]) (mkB typed None)) = applied l typed i.
Proof.
  intros l typed is i.
  assert (K : forall is b, b = mkB typed None \/ b_undo b = Some typed -> let b' := fold_left (fun b j => apply_suggestion l j b) is b in b' = mkB typed None \/ b_undo b' = Some typed).
  { assert (ONE : forall j b, b = mkB typed None \/ b_undo b = Some typed -> apply_suggestion l j b = mkB typed None \/ b_undo (apply_suggestion l j b) = Some typed).
    { intros j b B. unfold apply_suggestion. assert (E : match b_undo b with Some t => mkB t None | None => b end = mkB typed None) by (destruct B as [-> | B]; [reflexivity | rewrite B; reflexivity]).
      rewrite E. cbv zeta. destruct ((0 <=? j) && (j <? Z.of_nat (length l))); [|left; reflexivity]. destruct (nth_error l (Z.to_nat j)); [right; reflexivity | left; reflexivity]. }
    clear is. induction is as [|j is IH]; intros b B; [exact B|]. cbn [fold_left]. apply IH, ONE, B. }
  rewrite fold_left_app. cbn [fold_left]. specialize (K is (mkB typed None) (or_introl eq_refl)). cbv zeta in K.
  set (b := fold_left (fun b j => apply_suggestion l j b) is (mkB typed None)) in *. clearbody b.
  unfold apply_suggestion. assert (E : match b_undo b with Some t => mkB t None | None => b end = mkB typed None) by (destruct K as [-> | B]; [reflexivity | rewrite B; reflexivity]).
  rewrite E. cbv zeta. unfold applied. destruct (Z.ltb_spec i 0) as [N0 | N0].
  - assert (E2 : (0 <=? i) = false) by lia. rewrite E2. reflexivity.
  - assert (E2 : (0 <=? i) = true) by lia. rewrite E2. cbn [andb]. destruct (nth_error l (Z.to_nat i)) as [g|] eqn:G.
    + assert (L : (Z.to_nat i < length l)%nat) by (apply nth_error_Some; rewrite G; discriminate).
      assert (E3 : (i <? Z.of_nat (length l)) = true) by lia. rewrite E3. reflexivity.
    + apply nth_error_None in G. assert (E3 : (i <? Z.of_nat (length l)) = false) by lia. rewrite E3. reflexivity.
Qed.

Example sl_start : st := mkS (-1) 0 20 10 10 false (-1) 0 (-1).
Example sl_start_ok : drawn_list sl_start. Proof. unfold drawn_list, sl_start. cbn. lia. Qed.
Example sl_course : exists s', course 3 false sl_start [Input Down; Input PageDown; Input PageDown; Fewer 5; Removed 1 5; Input (Click 2 true); Input (WheelUp 3); Input (Drag (-1) true (Some 2)); Edited] s'
  /\ idx s' = -1 /\ cnt s' = 19 /\ vis s' = 5.
Proof. eexists. split; [repeat (apply course_cons; [vm_compute; intuition (discriminate || reflexivity || (left; reflexivity)) |]); apply course_nil|]. vm_compute. repeat split. Qed.
Example sl_downs : idx (times 3 true 12 Down sl_start) = 11 /\ top (times 3 true 12 Down sl_start) = 5. Proof. split; reflexivity. Qed.
Example sl_pages : idx (on_input 0 false (times 0 false 12 Down sl_start) PageUp) = 2 /\ idx (on_input 0 false (times 0 false 12 Down sl_start) PageDown) = 19. Proof. vm_compute. split; reflexivity. Qed.
Example sl_page_last : idx (on_input 0 false (times 0 false 3 Down sl_start) PageDown) = 9. Proof. reflexivity. Qed.
Example sl_drag : idx (on_input 3 false sl_start (Drag 12 true (Some 3))) = 10 /\ on_top (on_input 3 false sl_start (Drag 12 true (Some 3))) = 3. Proof. split; reflexivity. Qed.
Example sl_removed : idx (removed 3 (times 3 false 20 Down sl_start) 1 10) = 18. Proof. reflexivity. Qed.
Example sl_click : nth_error (screen (fun i => i =? 4) (times 3 false 5 Down sl_start)) 3 = Some (Item 3 false) /\ idx (on_input 3 false (times 3 false 5 Down sl_start) (Click 3 true)) = 3. Proof. vm_compute. split; reflexivity. Qed.
Example sl_line : b_text (fold_left (fun b j => apply_suggestion [mkG 0 [103; 105; 116]%N; mkG 2 [111]%N] j b) ([0; 1; -1] ++ [1]) (mkB [103; 111; 116]%N None)) = [103; 111; 111]%N. Proof. reflexivity. Qed.

Print Assumptions selection_shown_partial.
Print Assumptions page_down_to_last_partial.
Print Assumptions drag_beyond.
Print Assumptions selection_given_up.
Print Assumptions down_and_up.
Print Assumptions at_the_ends.
Print Assumptions page_up_moves.
Print Assumptions page_down_moves_partial.
Print Assumptions click_selects_partial.
Print Assumptions click_selects_refuted.
Print Assumptions wheel_up_refuted.
Print Assumptions page_down_refuted.
Print Assumptions drag_beside_refuted.
Print Assumptions line_of_selection.
