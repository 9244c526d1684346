(** C111: with history.sticky_search a series of commands is replayed. *)
From Verif Require Import Base SkModel.

Section Sticky.
Variable add : list text -> text -> list text.
Definition real (h : list text) : Prop := Forall (fun t => t <> []) h.
Definition fresh_es (h : list text) : list (text * undo) := map (fun t => (t, None)) h.

Lemma text_eqb_refl : forall t, text_eqb t t = true.
Proof. intros t. unfold text_eqb. destruct (list_eq_dec N.eq_dec t t); congruence. Qed.
Lemma nth_fresh : forall h p, nth_error (fresh_es h) p = option_map (fun t => (t, None)) (nth_error h p).
Proof. intros h p. apply nth_error_map. Qed.
Lemma len_fresh : forall h, length (fresh_es h) = length h.
Proof. intros h. apply map_length. Qed.
Lemma put_same : forall {A} (l : list A) n x, nth_error l n = Some x -> put l n x = l.
Proof.
  intros A l n x H. unfold put. assert (L : n < length l) by (apply nth_error_Some; rewrite H; discriminate).
  destruct (Nat.ltb_spec n (length l)); [|lia].
  assert (K : forall l n, nth_error l n = Some x -> firstn n l ++ x :: skipn (S n) l = l).
  { clear. induction l as [|a l IH]; intros [|n] H; try discriminate; cbn [nth_error] in H.
    - injection H as ->. reflexivity.
    - cbn [firstn skipn app]. f_equal. apply IH, H. }
  apply K, H.
Qed.

(** before any edit: the entries are those of the history, and where a line was taken from it is that line *)
Definition clean (h : list text) (s : st) : Prop :=
  es s = fresh_es h /\ off s <= length h /\ und s = None /\ (match saved s with Some (_, u) => u = None | None => True end) /\
  (off s < length h -> (nth_error h (off s) = Some (line s) /\ use s = false) \/ (line s = [] /\ use s = true /\ init s <> None)) /\
  (match init s with Some i => use s = true -> off s = Nat.min i (length h) | None => use s = false end).
Lemma begin_clean : forall h i, clean h (begin h i).
Proof.
  intros h [p|]; unfold begin, clean; fold (fresh_es h); cbn [es off use line und saved init]; rewrite len_fresh.
  - split; [reflexivity|]. split; [destruct (p <=? length h) eqn:E; lia|]. split; [reflexivity|]. split; [exact Logic.I|].
    split; [intros _; right; split; [reflexivity | split; [reflexivity | discriminate]]|]. intros _. destruct (p <=? length h) eqn:E; lia.
  - split; [reflexivity|]. split; [lia|]. split; [reflexivity|]. split; [exact Logic.I|]. split; [lia | reflexivity].
Qed.
Lemma replace_clean : forall h s, clean h s -> replace_line s = s.
Proof.
  intros h s (C1 & C2 & C3 & C4 & C5 & C6). unfold replace_line. rewrite C1, nth_fresh, C3. destruct (nth_error h (off s)); reflexivity.
Qed.
Lemma up_clean : forall h s, clean h s -> clean h (up s) /\ init (up s) = init s /\ (use s = false -> 0 < off s -> off (up s) = off s - 1 /\ use (up s) = false)
  /\ (use s = true -> off (up s) = off s /\ (h <> [] -> use (up s) = false)).
Proof.
  intros h s C. pose proof C as (C1 & C2 & C3 & C4 & C5 & C6). unfold up. rewrite C1, len_fresh.
  destruct (length h =? 0) eqn:E.
  { split; [exact C|]. split; [reflexivity|]. split; [lia|]. intros U. split; [reflexivity|]. intros N0. destruct h; [congruence | cbn in E; discriminate]. }
  cbv zeta. match goal with |- context [replace_line ?x] => set (s1 := x) end.
  assert (C' : clean h s1).
  { unfold s1, clean. cbn [es off use line und saved init]. split; [reflexivity|]. split; [exact C2|]. split; [exact C3|]. split; [|split; [exact C5 | exact C6]].
    destruct (saved s) as [[t u]|]; [exact C4 | exact C3]. }
  rewrite (replace_clean h s1 C'). assert (S1 : off s1 = off s /\ use s1 = use s /\ init s1 = init s /\ es s1 = fresh_es h /\ line s1 = line s /\ und s1 = None) by (repeat split; exact C3).
  assert (SV : match saved s1 with Some (_, u) => u = None | None => True end) by apply C'.
  clearbody s1. destruct S1 as (S1 & S2 & S3 & S4 & S5 & S6). rewrite S1, S2, S4.
  destruct (use s) eqn:U.
  - rewrite nth_fresh. destruct (nth_error h (off s)) as [t|] eqn:T; cbn [option_map].
    + assert (L : off s < length h) by (apply nth_error_Some; rewrite T; discriminate).
      unfold from_history, clean. cbn [es off use line und saved init fst snd]. split; [|split; [exact S3|]; split; [discriminate|]; intros _; split; [reflexivity | reflexivity]].
      split; [exact S4|]. split; [exact C2|]. split; [reflexivity|]. split; [exact SV|]. split; [intros _; left; split; [exact T | reflexivity]|]. rewrite S3. destruct (init s); [discriminate | reflexivity].
    + apply nth_error_None in T. unfold clean. cbn [es off use line und saved init]. split; [|split; [exact S3|]; split; [discriminate|]; intros _; split; [reflexivity | reflexivity]].
      split; [reflexivity|]. split; [exact C2|]. split; [exact S6|]. split; [exact C4|]. split; [lia|]. rewrite S3. destruct (init s); [discriminate | reflexivity].
  - destruct (off s) as [|o] eqn:O.
    + unfold clean. cbn [es off use line und saved init]. split; [|split; [exact S3|]; split; [lia | discriminate]].
      split; [reflexivity|]. split; [lia|]. split; [exact S6|]. split; [exact C4|]. split.
      * intros L. destruct (C5 L) as [(D1 & D2) | (D1 & D2 & D3)]; [left; rewrite S5; split; [exact D1 | reflexivity] | discriminate].
      * rewrite S3. destruct (init s); [discriminate | reflexivity].
    + rewrite nth_fresh. destruct (nth_error h o) as [t|] eqn:T; [|apply nth_error_None in T; lia]. cbn [option_map].
      unfold from_history, clean. cbn [es off use line und saved init fst snd]. split; [|split; [exact S3|]; split; [intros _ _; split; [lia | reflexivity] | discriminate]].
      split; [exact S4|]. split; [lia|]. split; [reflexivity|]. split; [exact SV|]. split; [intros _; left; split; [exact T | reflexivity]|]. rewrite S3. destruct (init s); [discriminate | reflexivity].
Qed.
Lemma down_clean : forall h s, clean h s -> clean h (down s) /\ init (down s) = init s /\ off (down s) = Nat.min (length h) (S (off s)) /\ use (down s) = false.
Proof.
  intros h s C. pose proof C as (C1 & C2 & C3 & C4 & C5 & C6). unfold down. rewrite (replace_clean h s C). cbv zeta. rewrite C1, len_fresh.
  assert (END : forall o, o = length h -> clean h (match saved s with Some (t, u) => mk (fresh_es h) o false t u None (init s) (fresh s) | None => mk (fresh_es h) o false (line s) (und s) None (init s) (fresh s) end)
    /\ init (match saved s with Some (t, u) => mk (fresh_es h) o false t u None (init s) (fresh s) | None => mk (fresh_es h) o false (line s) (und s) None (init s) (fresh s) end) = init s
    /\ off (match saved s with Some (t, u) => mk (fresh_es h) o false t u None (init s) (fresh s) | None => mk (fresh_es h) o false (line s) (und s) None (init s) (fresh s) end) = o
    /\ use (match saved s with Some (t, u) => mk (fresh_es h) o false t u None (init s) (fresh s) | None => mk (fresh_es h) o false (line s) (und s) None (init s) (fresh s) end) = false).
  { intros o ->. destruct (saved s) as [[t u]|]; unfold clean; cbn [es off use line und saved init];
      (split; [split; [reflexivity|]; split; [lia|]; split; [assumption|]; split; [exact Logic.I|]; split; [lia|]; destruct (init s); [discriminate | reflexivity] | repeat split]). }
  destruct (Nat.eqb_spec (off s) (length h)) as [E | E].
  - destruct (END (off s) E) as (E1 & E2 & E3 & E4). split; [exact E1|]. split; [exact E2|]. split; [rewrite E3; lia | exact E4].
  - rewrite nth_fresh. destruct (nth_error h (S (off s))) as [t|] eqn:T; cbn [option_map].
    + assert (L : S (off s) < length h) by (apply nth_error_Some; rewrite T; discriminate).
      unfold from_history, clean. cbn [es off use line und saved init fst snd]. split; [|split; [reflexivity|]; split; [lia | reflexivity]].
      split; [exact C1|]. split; [lia|]. split; [reflexivity|]. split; [exact C4|]. split; [intros _; left; split; [exact T | reflexivity]|]. destruct (init s); [discriminate | reflexivity].
    + apply nth_error_None in T. destruct (END (S (off s)) ltac:(lia)) as (E1 & E2 & E3 & E4). split; [exact E1|]. split; [exact E2|]. split; [rewrite E3; lia | exact E4].
Qed.
(** Enter on a line of the history *)
Lemma enter_clean : forall h s, real h -> clean h s -> off s < length h -> use s = false -> exists t, nth_error h (off s) = Some t /\ enter add h s = (h, Some (off s), t).
Proof.
  intros h s R (C1 & C2 & C3 & C4 & C5 & C6) L U. destruct (C5 L) as [[D _] | (_ & D & _)]; [|congruence]. exists (line s). split; [exact D|].
  unfold enter. rewrite C3, C1, nth_fresh, D. cbn [option_map]. rewrite len_fresh. destruct (Nat.ltb_spec (off s) (length h)); [|lia]. cbv zeta. rewrite nth_fresh, D. cbn [option_map].
  assert (NE : line s <> []) by (unfold real in R; rewrite Forall_forall in R; apply R; eapply nth_error_In; exact D).
  rewrite text_eqb_refl. destruct (line s); [congruence | reflexivity].
Qed.

Definition ups (k : nat) : list key := repeat Up k.
Definition downs (k : nat) : list key := repeat Down k.
Lemma press_ups : forall h k s, clean h s -> use s = false -> k <= off s -> let s' := fold_left press (ups k) s in clean h s' /\ off s' = off s - k /\ use s' = false.
Proof.
  intros h. induction k as [|k IH]; intros s C U L; cbn [ups repeat fold_left]; [split; [exact C | split; [lia | exact U]]|].
  cbn [press]. destruct (up_clean h s C) as (K1 & K2 & K3 & K4). destruct (K3 U ltac:(lia)) as [K5 K6]. destruct (IH (up s) K1 K6 ltac:(lia)) as (I1 & I2 & I3). split; [exact I1|]. split; [fold (ups k); lia | exact I3].
Qed.
Lemma press_downs : forall h k s, clean h s -> use s = false \/ 0 < k -> off s + k <= length h -> let s' := fold_left press (downs k) s in clean h s' /\ off s' = off s + k /\ use s' = false.
Proof.
  intros h. induction k as [|k IH]; intros s C U L; cbn [downs repeat fold_left]; [split; [exact C | split; [lia | destruct U; [assumption | lia]]]|].
  cbn [press]. destruct (down_clean h s C) as (K1 & K2 & K3 & K4). destruct (IH (down s) K1 (or_introl K4) ltac:(lia)) as (I1 & I2 & I3). split; [exact I1|]. split; [fold (downs k); lia | exact I3].
Qed.

(** ** C111 *)
(** At a prompt without a kept position, k times Up gives the k-th last command and keeps its position; the history is not changed. *)
Theorem up_from_end : forall h k t, real h -> 1 <= k <= length h -> nth_error h (length h - k) = Some t ->
  prompt add h None (ups k) = (h, Some (length h - k), t).
Proof.
  intros h k t R K T. unfold prompt. pose proof (begin_clean h None) as C.
  assert (B : off (begin h None) = length h /\ use (begin h None) = false) by (unfold begin; cbn [off use]; fold (fresh_es h); rewrite len_fresh; split; reflexivity).
  destruct B as [B1 B2]. destruct (press_ups h k _ C B2 ltac:(lia)) as (P1 & P2 & P3).
  destruct (enter_clean h _ R P1 ltac:(lia) P3) as (t' & T1 & T2). rewrite T2. rewrite P2, B1 in *. congruence.
Qed.
(** At the next prompt Up gives the same command again, more Ups the ones before it, and Down the ones after it. *)
Theorem from_kept : forall h i j t, real h -> i < length h ->
  (j <= i -> nth_error h (i - j) = Some t -> prompt add h (Some i) (ups (S j)) = (h, Some (i - j), t)) /\
  (1 <= j -> i + j < length h -> nth_error h (i + j) = Some t -> prompt add h (Some i) (downs j) = (h, Some (i + j), t)).
Proof.
  intros h i j t R L. unfold prompt. pose proof (begin_clean h (Some i)) as C.
  assert (B : off (begin h (Some i)) = i /\ use (begin h (Some i)) = true).
  { unfold begin. cbn [off use]. fold (fresh_es h). rewrite len_fresh. destruct (i <=? length h) eqn:E; [split; reflexivity | lia]. }
  destruct B as [B1 B2]. split.
  - intros J T. cbn [ups repeat fold_left press]. fold (ups j). destruct (up_clean h _ C) as (K1 & K2 & K3 & K4). destruct (K4 B2) as [K5 K6].
    assert (K7 : use (up (begin h (Some i))) = false) by (apply K6; destruct h; [cbn in L; lia | discriminate]).
    destruct (press_ups h j _ K1 K7 ltac:(lia)) as (P1 & P2 & P3).
    destruct (enter_clean h _ R P1 ltac:(lia) P3) as (t' & T1 & T2). rewrite T2. rewrite P2, K5, B1 in *. congruence.
  - intros J J2 T. destruct (press_downs h j _ C (or_intror J) ltac:(lia)) as (P1 & P2 & P3).
    destruct (enter_clean h _ R P1 ltac:(lia) P3) as (t' & T1 & T2). rewrite T2. rewrite P2, B1 in *. congruence.
Qed.
(** So Up k times, Enter, then Down, Enter again and again replays the last k commands in order, and does not change the history. *)
Theorem replay : forall h k m, real h -> 1 <= k <= length h -> m < k ->
  session add h None (ups k :: repeat (downs 1) m) = (h, Some (length h - k + m), firstn (S m) (skipn (length h - k) h)).
Proof.
  intros h k m R K M.
  assert (KEY : forall m i, i + m < length h -> session add h (Some i) (repeat (downs 1) m) = (h, Some (i + m), firstn m (skipn (S i) h))).
  { clear K M m. induction m as [|m IH]; intros i L; cbn [repeat session]; [rewrite firstn_O, Nat.add_0_r; reflexivity|].
    destruct (nth_error h (i + 1)) as [t|] eqn:T; [|apply nth_error_None in T; lia].
    destruct (from_kept h i 1 t R ltac:(lia)) as [_ F]. rewrite (F (Nat.le_refl 1) ltac:(lia) T). rewrite IH by lia.
    replace (i + 1 + m) with (i + S m) by lia. f_equal.
    replace (i + 1) with (S i) in * by lia. clear - T. revert T. generalize (S i). intros p T.
    assert (SK : skipn p h = t :: skipn (S p) h).
    { revert p T. clear. induction h as [|a h IH]; intros [|p] T; try discriminate; cbn [nth_error] in T; [injection T as ->; reflexivity | exact (IH p T)]. }
    rewrite SK. reflexivity. }
  cbn [session]. destruct (nth_error h (length h - k)) as [t|] eqn:T; [|apply nth_error_None in T; lia].
  rewrite (up_from_end h k t R K T). rewrite KEY by lia. f_equal.
  assert (SK : skipn (length h - k) h = t :: skipn (S (length h - k)) h).
  { revert T. generalize (length h - k). clear. induction h as [|a h IH]; intros [|p] T; try discriminate; cbn [nth_error] in T; [injection T as ->; reflexivity | exact (IH p T)]. }
  rewrite SK. reflexivity.
Qed.

(** Whatever Ups and Downs: a line taken from the history is not added, unless Down was pressed past the last. *)
Definition is_move (k : key) : Prop := match k with Edit _ => False | _ => True end.
Lemma moves_clean : forall h ks s, Forall is_move ks -> clean h s -> clean h (fold_left press ks s) /\ init (fold_left press ks s) = init s.
Proof.
  intros h. induction ks as [|k ks IH]; intros s F C; cbn [fold_left]; [split; [exact C | reflexivity]|]. inversion F as [|k' ks' F1 F2]; subst.
  destruct k as [| |t]; [| |destruct F1]; cbn [press].
  - destruct (up_clean h s C) as (K1 & K2 & _). rewrite <- K2. apply IH; assumption.
  - destruct (down_clean h s C) as (K1 & K2 & _). rewrite <- K2. apply IH; assumption.
Qed.
Theorem reused_not_added_partial : forall h i ks, real h -> Forall is_move ks ->
  let s := fold_left press ks (begin h i) in off s < length h -> line s <> [] -> prompt add h i ks = (h, Some (off s), line s) /\ nth_error h (off s) = Some (line s).
Proof.
  intros h i ks R F s L NE. destruct (moves_clean h ks (begin h i) F (begin_clean h i)) as [C _]. fold s in C.
  pose proof C as (C1 & C2 & C3 & C4 & C5 & C6). destruct (C5 L) as [[D U] | (D & _)]; [|congruence].
  destruct (enter_clean h s R C L U) as (t & T1 & T2). unfold prompt. fold s. rewrite T2. split; [congruence | exact D].
Qed.

(** A command that is not in the history is added and the kept position given up, if it was edited only after the last Up or Down. *)
Lemma edits_state : forall h ts s, (es s = fresh_es h /\ off s <= length h /\ (off s < length h -> exists n b, und s = Some (n, b) /\ nth_error h (off s) = Some b) /\ init s = None) ->
  let s' := fold_left press (map Edit ts) s in es s' = fresh_es h /\ off s' <= length h /\ (off s' < length h -> exists n b, und s' = Some (n, b) /\ nth_error h (off s') = Some b) /\ init s' = None.
Proof.
  intros h. induction ts as [|t ts IH]; intros s H; cbn [map fold_left]; [exact H|]. apply IH. cbn [press]. unfold edit. destruct H as (H1 & H2 & H3 & H4). rewrite H4. cbn [andb es off und init].
  split; [exact H1|]. split; [exact H2|]. split; [|reflexivity]. intros L. destruct (H3 L) as (n & b & U & T). rewrite U. eexists. exists b. split; [reflexivity | exact T].
Qed.
Theorem new_command_added_partial : forall (h : list text) i ks ts, Forall is_move ks -> ts <> [] ->
  let t := last ts [] in t <> [] -> ~ In t h -> prompt add h i (ks ++ map Edit ts) = (add h t, None, t).
Proof.
  intros h i ks ts F TS t NE NI. unfold prompt. rewrite fold_left_app.
  destruct (moves_clean h ks (begin h i) F (begin_clean h i)) as [C CI]. set (s := fold_left press ks (begin h i)) in *. clearbody s.
  destruct ts as [|t1 ts]; [congruence|]. cbn [map fold_left]. pose proof C as (C1 & C2 & C3 & C4 & C5 & C6).
  assert (E : es (edit t1 s) = fresh_es h /\ off (edit t1 s) <= length h /\ (off (edit t1 s) < length h -> exists n b, und (edit t1 s) = Some (n, b) /\ nth_error h (off (edit t1 s)) = Some b) /\ init (edit t1 s) = None).
  { unfold edit. cbn [es off und init]. rewrite C1, len_fresh, C3. split; [reflexivity|]. destruct (init s) as [p|] eqn:IS; cbn [andb].
    - destruct (line s) as [|c l] eqn:LS; (split; [lia|]); (split; [|reflexivity]); [lia|].
      intros L. destruct (C5 L) as [[D _] | (D & _)]; [|discriminate]. eexists. eexists. split; [reflexivity | exact D].
    - split; [exact C2|]. split; [|reflexivity]. intros L. destruct (C5 L) as [[D _] | (_ & D & _)]; [|congruence]. eexists. eexists. split; [reflexivity | exact D]. }
  cbn [press]. pose proof (edits_state h ts (edit t1 s) E) as (E1 & E2 & E3 & E4). cbv zeta in E1, E2, E3, E4.
  assert (LN : line (fold_left press (map Edit ts) (edit t1 s)) = t).
  { unfold t. clear. assert (K : forall l s t1, line s = t1 -> line (fold_left press (map Edit l) s) = last (t1 :: l) []).
    { induction l as [|t2 l IH]; intros s0 t0 L; [exact L|]. cbn [map fold_left press]. rewrite (IH (edit t2 s0) t2 eq_refl). reflexivity. }
    apply (K ts (edit t1 s) t1). reflexivity. }
  set (e := fold_left press (map Edit ts) (edit t1 s)) in *. clearbody e.
  unfold enter. rewrite E1, nth_fresh, E4, LN.
  assert (NB : forall p t', nth_error (fresh_es h) p = Some t' -> text_eqb (fst t') t = false).
  { intros p t' H. rewrite nth_fresh in H. destruct (nth_error h p) as [x|] eqn:X; [|discriminate]. cbn [option_map] in H. injection H as <-. cbn [fst].
    unfold text_eqb. destruct (list_eq_dec N.eq_dec x t) as [Y | Y]; [|reflexivity]. exfalso. apply NI. rewrite <- Y. eapply nth_error_In. exact X. }
  destruct (Nat.lt_ge_cases (off e) (length h)) as [L | L].
  - destruct (E3 L) as (n & b & U & T). rewrite U, T. cbn [option_map]. rewrite put_same by (rewrite nth_fresh, T; reflexivity). rewrite len_fresh. destruct (Nat.ltb_spec (off e) (length h)); [|lia]. cbv zeta.
    specialize (NB (off e) (b, None) ltac:(rewrite nth_fresh, T; reflexivity)). cbn [fst] in NB. rewrite nth_fresh, T. cbn [option_map]. rewrite NB. destruct t; [congruence | reflexivity].
  - rewrite (proj2 (nth_error_None h (off e))) by lia. cbn [option_map]. rewrite len_fresh. destruct (Nat.ltb_spec (off e) (length h)); [lia|]. cbv zeta. destruct t; [congruence | reflexivity].
Qed.
End Sticky.

(** Past the last command by Down, the line still shows it, and Enter adds it once more. *)
Theorem reused_not_added_refuted : exists h, real h /\ session (fun l t => l ++ [t]) h None [ups 2; downs 2] = (h ++ [last h []], None, [nth 1 h []; last h []]).
Proof.
  exists [[97]; [98]; [99]]%N. split; [|reflexivity]. unfold real. repeat (apply Forall_cons; [discriminate|]). apply Forall_nil.
Qed.
(** The oldest command, edited, and then Up (which only dings): the edited command is run but not added to the history. *)
Theorem new_command_added_refuted : exists h t, real h /\ ~ In t h /\ prompt (fun l x => l ++ [x]) h None (ups 2 ++ [Edit t; Up]) = (h, Some 0, t).
Proof.
  exists [[97]; [98]]%N, [97; 33]%N. split; [unfold real; repeat (apply Forall_cons; [discriminate|]); apply Forall_nil|].
  split; [|reflexivity]. cbn [In]. intros [H | [H | H]]; [discriminate | discriminate | exact H].
Qed.

Example sk_h : list text := [[97]; [98]; [99]; [100]]%N.
Example sk_real : real sk_h. Proof. unfold real, sk_h. repeat (apply Forall_cons; [discriminate|]). apply Forall_nil. Qed.
Example sk_replay : session (fun l t => l ++ [t]) sk_h None [ups 3; downs 1; downs 1] = (sk_h, Some 3, [[98]; [99]; [100]]%N). Proof. reflexivity. Qed.
Example sk_again : session (fun l t => l ++ [t]) sk_h None [ups 3; ups 1; ups 2] = (sk_h, Some 0, [[98]; [98]; [97]]%N). Proof. reflexivity. Qed.
Example sk_reused : prompt (fun l t => l ++ [t]) sk_h (Some 1) [Down; Up; Up; Down] = (sk_h, Some 1, [98]%N). Proof. reflexivity. Qed.
Example sk_new : prompt (fun l t => l ++ [t]) sk_h (Some 1) ([Down; Up] ++ map Edit [[98; 33]; [98; 33; 33]]%N) = (sk_h ++ [[98; 33; 33]%N], None, [98; 33; 33]%N). Proof. reflexivity. Qed.
Print Assumptions up_from_end.
Print Assumptions from_kept.
Print Assumptions replay.
Print Assumptions reused_not_added_partial.
Print Assumptions new_command_added_partial.
Print Assumptions reused_not_added_refuted.
Print Assumptions new_command_added_refuted.
