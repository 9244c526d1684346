(** C113: dragging past the edge of a list scrolls at a limited and growing speed. *)
From Verif Require Import Base ShModel.
Local Open Scope Z_scope.

(** The list is shown at time c, the mouse is dragged from then on, within the period of the tick counter. *)
Definition timely (c : Z) (es : list (Z * Z)) : Prop :=
  (fix go p l := match l with [] => True | (t, room) :: r => p <= t /\ t < c + M - 65535 /\ 0 <= room /\ go t r end) c es.
Definition dragging (tells : bool) (c : Z) (h : helper) (es : list (Z * Z)) : list (Z * Z * Z) := drags tells (clear (tick c) h) es.
(** Rows at once, by the time since dragging began. *)
Definition pace (d : Z) : Z := if 2000 <? d then 10 else if 1000 <? d then 3 else 1.

Fixpoint from (c p : Z) (es : list (Z * Z)) : Prop :=
  match es with [] => True | (t, room) :: r => p <= t /\ t < c + M - 65535 /\ 0 <= room /\ from c t r end.
Lemma timely_from : forall c es, timely c es -> from c c es.
Proof.
  intros c es. unfold timely. generalize c at 2 4. induction es as [|[t room] es IH]; intros p H; [exact I|].
  destruct H as (A & B & C & D). cbn [from]. repeat (split; [assumption|]). apply IH, D.
Qed.
Lemma sub_tick : forall t l, 0 <= t - l < M -> sub32 (tick t) (tick l) = t - l.
Proof. intros t l H. unfold sub32, tick. rewrite <- Zminus_mod. apply Z.mod_small. exact H. Qed.
(** The helper knows the time of the last scroll and the time since when the speed grows. *)
Definition knows (h : helper) (l a : Z) : Prop := scroll_tick h = tick l /\ accelerate_tick h = tick a.
Lemma clear_knows : forall c h, knows (clear (tick c) h) (c - 65535) (c - 65535).
Proof. intros c h. unfold knows, clear, sub32, tick. cbn [scroll_tick accelerate_tick]. rewrite Zminus_mod_idemp_l. split; reflexivity. Qed.
Lemma drag_knows : forall tells t room h l a, knows h l a -> 0 <= t - l < M -> 0 <= t - a < M -> 0 <= room ->
  let a' := if 250 <? t - l then t else a in
  exists h', drag tells (tick t) room h = (h', if (15 <? t - l) then Z.min room (pace (t - a')) else 0) /\
    knows h' (if tells && (15 <? t - l) && (0 <? room) then t else l) a'.
Proof.
  intros tells t room h l a [K1 K2] L A R a'. unfold drag, on_input. cbn [can speed]. rewrite K1, K2, (sub_tick t l L).
  assert (E : (if 250 <? t - l then tick t else tick a) = tick a') by (unfold a'; destruct (250 <? t - l); reflexivity). rewrite E.
  assert (Q : sub32 (tick t) (tick a') = t - a') by (apply sub_tick; unfold a'; destruct (250 <? t - l); [unfold M; lia | exact A]). rewrite Q.
  fold (pace (t - a')). assert (P : 0 < pace (t - a')) by (unfold pace; destruct (2000 <? t - a'); [lia|]; destruct (1000 <? t - a'); lia).
  destruct (15 <? t - l); cbn [andb]; [|rewrite andb_false_r; cbn [andb]; eexists; split; [reflexivity|]; split; reflexivity].
  destruct (0 <? room) eqn:Z0.
  - destruct tells; (eexists; split; [reflexivity|]; split; reflexivity).
  - replace (Z.min room (pace (t - a'))) with 0 by lia. rewrite andb_false_r. eexists; split; [reflexivity|]. split; reflexivity.
Qed.

Lemma after_last : forall es h l a c p, knows h l a -> from c p es -> l <= p -> a <= p -> c - 65535 <= l -> c - 65535 <= a ->
  forall t room m, In (t, room, m) (drags true h es) -> 0 < m -> 15 < t - l.
Proof.
  induction es as [|[t room] es IH]; intros h l a c p K F L A CL CA t' room' m I P; [destruct I|].
  cbn [from] in F. destruct F as (F1 & F2 & F3 & F4). cbn [drags] in I.
  destruct (drag_knows true t room h l a K) as (h' & D & K'); [lia | lia | exact F3|]. cbv zeta in D, K'. rewrite D in I.
  cbn [In] in I. destruct I as [I | I].
  - injection I as <- <- <-. destruct (15 <? t - l) eqn:Q; lia.
  - pose proof (IH _ _ _ c t K' F4) as X. destruct (true && (15 <? t - l) && (0 <? room)).
    + pose proof (X ltac:(lia) ltac:(destruct (250 <? t - l); lia) ltac:(lia) ltac:(destruct (250 <? t - l); lia) _ _ _ I P). lia.
    + apply (X ltac:(lia) ltac:(destruct (250 <? t - l); lia) ltac:(lia) ltac:(destruct (250 <? t - l); lia) _ _ _ I P).
Qed.
Lemma throttled_from : forall x es h l a c p, knows h l a -> from c p es -> l <= p -> a <= p -> c - 65535 <= l -> c - 65535 <= a ->
  forall t1 r1 m1 y t2 r2 m2, drags true h es = x ++ (t1, r1, m1) :: y -> In (t2, r2, m2) y -> 0 < m1 -> 0 < m2 -> 15 < t2 - t1.
Proof.
  induction x as [|e x IH]; intros es h l a c p K F L A CL CA t1 r1 m1 y t2 r2 m2 E I P1 P2.
  - destruct es as [|[t room] es]; [discriminate|]. cbn [from] in F. destruct F as (F1 & F2 & F3 & F4). cbn [drags] in E.
    destruct (drag_knows true t room h l a K) as (h' & D & K'); [lia | lia | exact F3|]. cbv zeta in D, K'. rewrite D in E. injection E as -> -> E1 <-.
    assert (Q : (15 <? t1 - l) = true) by (destruct (15 <? t1 - l); [reflexivity | lia]). rewrite Q in E1, K'.
    assert (Z0 : (0 <? r1) = true) by lia. rewrite Z0 in K'. cbn [andb] in K'.
    apply (after_last _ _ _ _ c t1 K' F4) with (room := r2) (m := m2); try lia; try (destruct (250 <? t1 - l); lia). exact I.
  - destruct es as [|[t room] es]; [discriminate|]. cbn [from] in F. destruct F as (F1 & F2 & F3 & F4). cbn [drags] in E.
    destruct (drag_knows true t room h l a K) as (h' & D & K'); [lia | lia | exact F3|]. cbv zeta in D, K'. rewrite D in E. injection E as _ E.
    apply (IH es h' _ _ c t K' F4) with (r1 := r1) (m1 := m1) (y := y) (r2 := r2) (m2 := m2); try assumption;
      destruct (true && (15 <? t - l) && (0 <? room)); destruct (250 <? t - l); lia.
Qed.
(** C113: two scrolls are more than 15 ms apart, also when the tick counter starts over in between. *)
Theorem scrolls_apart : forall c h es x t1 r1 m1 y t2 r2 m2 z, timely c es ->
  dragging true c h es = x ++ (t1, r1, m1) :: y ++ (t2, r2, m2) :: z -> 0 < m1 -> 0 < m2 -> 15 < t2 - t1.
Proof.
  intros c h es x t1 r1 m1 y t2 r2 m2 z T E P1 P2.
  apply (throttled_from x es _ _ _ c c (clear_knows c h) (timely_from _ _ T)) with (r1 := r1) (m1 := m1) (y := y ++ (t2, r2, m2) :: z) (r2 := r2) (m2 := m2); try lia; try assumption.
  apply in_or_app. right. left. reflexivity.
Qed.
Print Assumptions scrolls_apart.

Lemma pause_from : forall x es h l a c p, knows h l a -> from c p es -> l <= p -> a <= p -> c - 65535 <= l -> c - 65535 <= a ->
  forall t r m y, drags true h es = x ++ (t, r, m) :: y -> 250 < t - l -> (forall t' r' m', In (t', r', m') x -> 0 < m' -> 250 < t - t') -> m = Z.min r 1.
Proof.
  induction x as [|e x IH]; intros es h l a c p K F L A CL CA t1 r1 m1 y E G I.
  - destruct es as [|[t room] es]; [discriminate|]. cbn [from] in F. destruct F as (F1 & F2 & F3 & F4). cbn [drags] in E.
    destruct (drag_knows true t room h l a K) as (h' & D & K'); [lia | lia | exact F3|]. cbv zeta in D, K'. rewrite D in E. injection E as -> -> E1 _.
    assert (Q : (15 <? t1 - l) = true) by lia. assert (Q2 : (250 <? t1 - l) = true) by lia. rewrite Q, Q2 in E1. rewrite Z.sub_diag in E1. symmetry. exact E1.
  - destruct es as [|[t room] es]; [discriminate|]. cbn [from] in F. destruct F as (F1 & F2 & F3 & F4). cbn [drags] in E.
    destruct (drag_knows true t room h l a K) as (h' & D & K'); [lia | lia | exact F3|]. cbv zeta in D, K'. rewrite D in E. injection E as E0 E.
    apply (IH es h' _ _ c t K' F4) with (t := t1) (y := y); try assumption;
      try (destruct (true && (15 <? t - l) && (0 <? room)); destruct (250 <? t - l); lia).
    + destruct (15 <? t - l) eqn:Q; cbn [andb]; [|exact G]. destruct (0 <? room) eqn:Q0; [|exact G].
      apply (I t room (Z.min room (pace (t - (if 250 <? t - l then t else a))))); [left; symmetry; exact E0|].
      unfold pace. destruct (2000 <? _); [lia|]. destruct (1000 <? _); lia.
    + intros t' r' m' X. apply (I t' r' m'). right. exact X.
Qed.
(** C113: after a pause of more than 250 ms the list moves by one row, and at once. *)
Theorem slow_after_pause : forall c h es x t r m y, timely c es -> dragging true c h es = x ++ (t, r, m) :: y ->
  (forall t' r' m', In (t', r', m') x -> 0 < m' -> 250 < t - t') -> m = Z.min r 1.
Proof.
  intros c h es x t r m y T E I. apply timely_from in T.
  apply (pause_from x es _ _ _ c c (clear_knows c h) T) with (t := t) (y := y); try lia; try assumption.
  assert (X : forall es p, from c p es -> forall h t r m, In (t, r, m) (drags true h es) -> p <= t).
  { clear. induction es as [|[t0 r0] es IH]; intros p F h t r m I; [destruct I|]. cbn [from] in F. destruct F as (F1 & _ & _ & F4). cbn [drags] in I.
    destruct (drag true (tick t0) r0 h) as [h' m']. destruct I as [I | I]; [injection I as <- _ _; exact F1|]. pose proof (IH t0 F4 _ _ _ _ I). lia. }
  assert (c <= t); [|lia]. apply (X es c T (clear (tick c) h) t r m). unfold dragging in E. rewrite E. apply in_or_app. right. left. reflexivity.
Qed.
Print Assumptions slow_after_pause.

(** The mouse keeps moving: an input at least every 235 ms. *)
Fixpoint moving (p : Z) (es : list (Z * Z)) : Prop := match es with [] => True | (t, room) :: r => t - p <= 235 /\ 0 < room /\ moving t r end.
Lemma moving_from : forall es h l a c p, knows h l a -> from c p es -> moving p es -> p - 15 <= l <= p -> a <= p -> c - 65535 <= l -> c - 65535 <= a ->
  forall x t r m y, drags true h es = x ++ (t, r, m) :: y ->
    (m = 0 /\ (t - l <= 15 \/ exists t' r' m', In (t', r', m') x /\ 0 < m' /\ t - t' <= 15)) \/ m = Z.min r (pace (t - a)).
Proof.
  induction es as [|[t room] es IH]; intros h l a c p K F V L A CL CA x t1 r1 m1 y E; [destruct x; discriminate|].
  cbn [from] in F. destruct F as (F1 & F2 & F3 & F4). cbn [moving] in V. destruct V as (V1 & V2 & V3). cbn [drags] in E.
  destruct (drag_knows true t room h l a K) as (h' & D & K'); [lia | lia | exact F3|]. cbv zeta in D, K'. rewrite D in E.
  assert (Q : (250 <? t - l) = false) by lia. rewrite Q in E, K'. assert (Q0 : (0 <? room) = true) by lia. rewrite Q0, andb_true_r in K'. cbn [andb] in K'.
  destruct x as [|e x].
  - injection E as -> -> E1 _. destruct (15 <? t1 - l) eqn:Q1; [right; symmetry; exact E1 | left; split; [symmetry; exact E1 | left; lia]].
  - injection E as E0 E. destruct (15 <? t - l) eqn:Q1.
    + destruct (IH h' t a c t K' F4 V3 ltac:(lia) ltac:(lia) ltac:(lia) ltac:(lia) _ _ _ _ _ E) as [[X1 [X2 | (t' & r' & m' & X2 & X3 & X4)]] | X]; [| |right; exact X].
      * left. split; [exact X1|]. right. exists t, room, (Z.min room (pace (t - a))). split; [left; symmetry; exact E0|]. split; [|exact X2].
        unfold pace. destruct (2000 <? _); [lia|]. destruct (1000 <? _); lia.
      * left. split; [exact X1|]. right. exists t', r', m'. split; [right; exact X2 | split; assumption].
    + destruct (IH h' l a c t K' F4 V3 ltac:(lia) ltac:(lia) ltac:(lia) ltac:(lia) _ _ _ _ _ E) as [[X1 [X2 | (t' & r' & m' & X2 & X3 & X4)]] | X]; [| |right; exact X].
      * left. split; [exact X1 | left; exact X2].
      * left. split; [exact X1|]. right. exists t', r', m'. split; [right; exact X2 | split; assumption].
Qed.
(** C113: while the mouse keeps moving the list moves with every input that comes more than 15 ms after the last
    scroll, by 1 row within the first second, by 3 in the next, then by 10, or by what is left. *)
Theorem speeds_up : forall c h t0 r0 es x t r m y, timely c ((t0, r0) :: es) -> 0 < r0 -> moving t0 es ->
  dragging true c h ((t0, r0) :: es) = x ++ (t, r, m) :: y ->
  (m = 0 /\ exists t' r' m', In (t', r', m') x /\ 0 < m' /\ t - t' <= 15) \/ m = Z.min r (pace (t - t0)).
Proof.
  intros c h t0 r0 es x t r m y T R V E. apply timely_from in T. cbn [from] in T. destruct T as (F1 & F2 & F3 & F4).
  unfold dragging in E. cbn [drags] in E.
  destruct (drag_knows true t0 r0 _ _ _ (clear_knows c h)) as (h' & D & K'); [lia | lia | exact F3|]. cbv zeta in D, K'. rewrite D in E.
  assert (Q : (250 <? t0 - (c - 65535)) = true) by lia. assert (Q1 : (15 <? t0 - (c - 65535)) = true) by lia. assert (Q0 : (0 <? r0) = true) by lia.
  rewrite Q, Q1 in E. rewrite Q, Q1, Q0 in K'. cbn [andb] in K'. destruct x as [|e x].
  - injection E as -> -> E1 _. right. symmetry. exact E1.
  - injection E as E0 E. destruct (moving_from es h' t0 t0 c t0 K' F4 V ltac:(lia) ltac:(lia) ltac:(lia) ltac:(lia) _ _ _ _ _ E) as [[X1 [X2 | (t' & r' & m' & X2 & X3 & X4)]] | X]; [| |right; exact X].
    + left. split; [exact X1|]. exists t0, r0, (Z.min r0 (pace (t0 - t0))). split; [left; symmetry; exact E0|]. split; [|exact X2]. rewrite Z.sub_diag. cbn. lia.
    + left. split; [exact X1|]. exists t', r', m'. split; [right; exact X2 | split; assumption].
Qed.
Print Assumptions speeds_up.

Lemma untold_from : forall es h l a c p, knows h l a -> from c p es -> c <= p -> l = c - 65535 -> a <= p -> c - 65535 <= a ->
  drags false h es = map (fun e => (fst e, snd e, Z.min (snd e) 1)) es.
Proof.
  induction es as [|[t room] es IH]; intros h l a c p K F P L A CA; [reflexivity|]. cbn [from] in F. destruct F as (F1 & F2 & F3 & F4). cbn [drags map fst snd].
  destruct (drag_knows false t room h l a K) as (h' & D & K'); [lia | lia | exact F3|]. cbv zeta in D, K'. rewrite D. cbn [andb] in K'.
  assert (Q : (250 <? t - l) = true) by lia. assert (Q1 : (15 <? t - l) = true) by lia. rewrite Q in K'. rewrite Q, Q1, Z.sub_diag. f_equal.
  apply (IH h' l t c t K' F4); lia.
Qed.
(** Popup lists do not tell of their scrolls: they move by one row with every input, never faster and without a pause. *)
Theorem popup_scrolls_refuted :
  (forall c h es, timely c es -> dragging false c h es = map (fun e => (fst e, snd e, Z.min (snd e) 1)) es) /\
  exists c h t0 r0 es x t r m y, timely c ((t0, r0) :: es) /\ 0 < r0 /\ moving t0 es /\ dragging false c h ((t0, r0) :: es) = x ++ (t, r, m) :: y /\
    m <> Z.min r (pace (t - t0)) /\ exists t' r' m', In (t', r', m') x /\ 0 < m' /\ 0 < m /\ t - t' <= 15.
Proof.
  split.
  - intros c h es T. apply (untold_from es _ (c - 65535) (c - 65535) c c (clear_knows c h) (timely_from _ _ T)); lia.
  - exists 0, (mk 0 0 1 false), 0, 99, [(200, 99); (400, 99); (600, 99); (800, 99); (1000, 99); (1195, 99); (1200, 99)].
    eexists (map (fun t => (t, 99, 1)) [0; 200; 400; 600; 800; 1000; 1195]), 1200, 99, 1, [].
    split; [unfold timely, M; lia|]. split; [lia|]. split; [cbn; lia|]. split; [vm_compute; reflexivity|]. split; [vm_compute; discriminate|].
    exists 1195, 99, 1. split; [cbn; tauto | lia].
Qed.
Print Assumptions popup_scrolls_refuted.

(** A run across the restart of the counter. *)
Definition some_start : Z := 4294967296 - 1100.
Definition some_events : list (Z * Z) := map (fun k => (some_start + Z.of_nat k * 100, 50 - Z.of_nat k)) (seq 0 25) ++ [(some_start + 2405, 9); (some_start + 2420, 4)].
Example some_run : timely some_start some_events /\ moving some_start (tl some_events) /\
  map snd (dragging true some_start (mk 0 0 0 false) some_events) = [1; 1; 1; 1; 1; 1; 1; 1; 1; 1; 1; 3; 3; 3; 3; 3; 3; 3; 3; 3; 3; 10; 10; 10; 10; 0; 4].
Proof. split; [vm_compute; repeat (split; [discriminate || reflexivity|]); exact I|]. split; [vm_compute; repeat (split; [discriminate || reflexivity|]); exact I|]. vm_compute. reflexivity. Qed.
Example some_pause : timely 5 [(10, 7); (20, 7); (280, 7)] /\ map snd (dragging true 5 (mk 0 0 0 false) [(10, 7); (20, 7); (280, 7)]) = [1; 0; 1].
Proof. split; [unfold timely, M; lia | vm_compute; reflexivity]. Qed.
