From Verif Require Import Base BindModel BindSpec BindProofs.
From Coq Require Import Sorting.Sorted.
Open Scope nat_scope.

Section Resolve.
Variables (b : binder) (B : list entry) (gr : list nat) (ok : bool) (gs : list info).
Hypothesis H : Hist b B gr ok gs.

Local Notation I := (st_inv _ _ (h_st _ _ _ _ _ H)).
Local Notation LS := (st_slots _ _ (h_st _ _ _ _ _ H)).

(** * Stepping *)
Definition pos (g tail : nat) (keys q : list N) : resolver := mkR (look gs g q) g false tail params0 0 0 false keys.
Definition longest (g : nat) (ks q : list N) : Prop := look gs g q <> 0 /\ exists s, ks = q ++ s /\ match s with [] => True | k :: _ => look gs g (q ++ [k]) = 0 end.

Lemma node_at g q : look gs g q <> 0 -> exists p n, at_ gs (look gs g q) = Some (p, g, q) /\ get b (look gs g q) = Some n /\ node_ok (get b) gs (length (b_modules b)) (look gs g q) p g q n.
Proof. intros L. destruct (look_in _ _ _ L) as [p A]. destruct (inv_node _ _ _ I _ _ _ _ A) as (n & Hn & O). eauto. Qed.
Lemma look_closed g q k : look gs g (q ++ [k]) <> 0 -> look gs g q <> 0.
Proof. intros L. destruct (node_at _ _ L) as (p & n & A & Hn & O). destruct (ok_key _ _ _ _ _ _ _ _ O q k eq_refl) as (_ & _ & _ & X & Y & _). congruence. Qed.
Lemma look_closed_app g q s : look gs g (q ++ s) <> 0 -> look gs g q <> 0.
Proof.
  induction s as [|k s IH] using rev_ind; [now rewrite app_nil_r|]. rewrite app_assoc. intros L. apply IH. now apply look_closed with k.
Qed.
Lemma kids_some g q : look gs g q <> 0 -> hd 0 (kids gs (look gs g q)) <> 0 -> exists k, look gs g (q ++ [k]) <> 0.
Proof.
  intros L K. destruct (kids gs (look gs g q)) as [|a l] eqn:E; [now elim K|].
  assert (Q : In a (kids gs (look gs g q))) by (rewrite E; now left).
  destruct (kid_info _ _ _ _ _ I Q) as (g' & q' & k & n & A & Hn & O). exists k.
  destruct (ok_key _ _ _ _ _ _ _ _ O q' k eq_refl) as (_ & _ & _ & X & Y & _). destruct (node_at _ _ L) as (p0 & n0 & A0 & _).
  destruct (look_path _ _ _ _ _ _ _ _ _ I Y X A0) as [-> ->].
  assert (W : In a (ids gs g' (q' ++ [k]))) by (apply ids_in; eauto). now destruct (look_some _ _ _ _ (inv_zero _ _ _ I) W).
Qed.
Lemma kids_none g q k : look gs g q <> 0 -> hd 0 (kids gs (look gs g q)) = 0 -> look gs g (q ++ [k]) = 0.
Proof.
  intros L K. unfold look. rewrite <- (kids_ids _ _ _ _ _ k I L). destruct (kids gs (look gs g q)) as [|a l] eqn:E; [reflexivity|]. cbn [hd] in K. subst a.
  assert (Q : In 0 (kids gs (look gs g q))) by (rewrite E; now left). pose proof (kid_gt _ _ _ _ _ I Q). lia.
Qed.

Lemma step_impl_pos g tail keys q k : look gs g q <> 0 ->
  step_impl b (pos g tail keys q) k =
    Some (if look gs g (q ++ [k]) =? 0 then (pos g tail keys q, true) else (pos g tail keys (q ++ [k]), (hd 0 (kids gs (look gs g (q ++ [k]))) =? 0))).
Proof.
  intros L. unfold step_impl, pos. cbn [r_node]. rewrite (find_child_ok b gs I LS g q k L).
  destruct (look gs g (q ++ [k])) as [|c] eqn:E; [reflexivity|]. cbn [Nat.eqb].
  destruct (node_at g (q ++ [k])) as (p & n & A & Hn & O); [congruence|]. rewrite E in *. rewrite Hn, (ok_params _ _ _ _ _ _ _ _ O). cbn [r_ppar r_node r_group r_pending r_tail r_params r_acc r_plen r_keys].
  rewrite (ok_child _ _ _ _ _ _ _ _ O), E, Nat.eqb_refl. reflexivity.
Qed.
Lemma push_pos g tail keys : forall ks q, look gs g q <> 0 -> exists q', push b (pos g tail keys q) ks = Some (pos g tail keys (q ++ q')) /\ longest g (q ++ ks) (q ++ q').
Proof.
  induction ks as [|k ks IH]; intros q L.
  - exists []. rewrite !app_nil_r. split; [reflexivity|]. split; [exact L|]. exists []. now rewrite app_nil_r.
  - cbn [push]. rewrite (step_impl_pos _ _ _ _ _ L). destruct (Nat.eqb_spec (look gs g (q ++ [k])) 0) as [E|E].
    + exists []. rewrite app_nil_r. split; [reflexivity|]. split; [exact L|]. exists (k :: ks). auto.
    + destruct (Nat.eqb_spec (hd 0 (kids gs (look gs g (q ++ [k])))) 0) as [E'|E'].
      * exists [k]. split; [reflexivity|]. split; [exact E|]. exists ks. rewrite <- app_assoc. split; [reflexivity|]. destruct ks as [|k' ks]; [exact Logic.I|]. now apply kids_none.
      * destruct (IH (q ++ [k]) E) as (q' & P1 & P2). exists (k :: q'). rewrite <- !app_assoc in *. cbn [app] in *. auto.
Qed.
(** typing *)
Lemma typed_pos g : forall ks q r fin, look gs g q <> 0 -> typed b (pos g 0 q q) ks = Some (r, fin) -> length (q ++ ks) <= 16 ->
  exists q', r = pos g 0 (q ++ ks) q' /\ longest g (q ++ ks) q' /\ (if fin then forall k, look gs g (q ++ ks ++ [k]) = 0 else look gs g (q ++ ks) <> 0 /\ (ks <> [] -> exists k, look gs g (q ++ ks ++ [k]) <> 0)).
Proof.
  induction ks as [|k ks IH]; intros q r fin L E Len.
  - cbn [typed] in E. injection E as <- <-. exists q. rewrite app_nil_r. split; [reflexivity|]. split; [split; [exact L|exists []; now rewrite app_nil_r]|]. split; [exact L|congruence].
  - cbn [typed] in E. unfold step in E. unfold max_keys in E. rewrite app_length in Len. cbn [length] in Len. replace (16 <=? length (r_keys (pos g 0 q q))) with false in E by (cbn [pos r_keys]; lia).
    change (mkR (r_node (pos g 0 q q)) (r_group (pos g 0 q q)) (r_pending (pos g 0 q q)) (r_tail (pos g 0 q q)) (r_params (pos g 0 q q)) (r_acc (pos g 0 q q)) (r_plen (pos g 0 q q)) (r_ppar (pos g 0 q q)) (r_keys (pos g 0 q q) ++ [k])) with (pos g 0 (q ++ [k]) q) in E.
    rewrite (step_impl_pos _ _ _ _ _ L) in E. destruct (Nat.eqb_spec (look gs g (q ++ [k])) 0) as [X|X].
    + destruct ks; [|discriminate]. injection E as <- <-. exists q. split; [reflexivity|]. split; [split; [exact L|exists [k]; auto]|]. intros k'. cbn [app].
      destruct (Nat.eq_dec (look gs g (q ++ [k; k'])) 0) as [Y|Y]; [exact Y|]. exfalso. change (q ++ [k; k']) with (q ++ [k] ++ [k']) in Y. rewrite app_assoc in Y. now apply look_closed in Y.
    + destruct (Nat.eqb_spec (hd 0 (kids gs (look gs g (q ++ [k])))) 0) as [Y|Y].
      * destruct ks; [|discriminate]. injection E as <- <-. exists (q ++ [k]). split; [reflexivity|]. split; [split; [exact X|exists []; now rewrite app_nil_r]|].
        intros k'. rewrite app_assoc. now apply kids_none.
      * destruct (IH (q ++ [k]) r fin X E) as (q' & P1 & P2 & P3); [rewrite !app_length; cbn [length]; lia|]. exists q'.
        rewrite <- !app_assoc in P1, P2. cbn [app] in P1, P2. split; [exact P1|]. split; [exact P2|]. destruct fin.
        -- intros k0. specialize (P3 k0). rewrite <- app_assoc in P3. exact P3.
        -- destruct P3 as [P3 P4]. rewrite <- app_assoc in P3. split; [exact P3|]. intros _. destruct ks as [|k1 ks].
           ++ destruct (kids_some _ _ X Y) as [k2 W]. exists k2. now rewrite <- app_assoc in W.
           ++ destruct P4 as [k2 W]; [discriminate|]. exists k2. rewrite <- app_assoc in W. exact W.
Qed.

(** * Walking *)
Inductive linked : list nat -> Prop :=
| lk_nil : linked []
| lk_cons i l n : i <> 0 -> get b i = Some n -> n_next n = hd 0 l -> linked l -> linked (i :: l).

Definition hit (tail : nat) (keys : list N) (i : nat) : list (N * N * nat) :=
  match get b i with
  | Some n => if n_bound n && ((n_key n =? 0)%N || match nth_error keys (tail + n_depth n - 1) with Some k => (n_key n =? k)%N | None => false end)
              then [(nth (n_module n) (b_modules b) 0%N, n_id n, Nat.max 1 (n_depth n))] else []
  | None => []
  end.
(** no index outside the keys *)
Definition safe (tail : nat) (keys : list N) (i : nat) : Prop :=
  forall n, get b i = Some n -> n_bound n = true -> n_module n < length (b_modules b) /\ (n_key n <> 0%N -> 1 <= n_depth n /\ tail + n_depth n <= length keys).
Definition on (g tail : nat) (keys : list N) (i : nat) : resolver := mkR i g false tail params0 0 0 false keys.

Lemma walk_step g tail keys i l n fuel : i <> 0 -> get b i = Some n -> n_next n = hd 0 l -> safe tail keys i ->
  walk (S fuel) b (on g tail keys i) =
    match hit tail keys i with
    | [] => walk fuel b (on g tail keys (hd 0 l))
    | _ => Some (on g tail keys (hd 0 l), Some (mkBd i (Nat.max 1 (n_depth n)) (n_module n) (n_id n) params0))
    end.
Proof.
  intros Hi Hn Nx Sf. unfold hit. cbn [walk on r_node]. destruct i as [|i0]; [congruence|]. rewrite Hn.
  assert (AT : at_node (on g tail keys (S i0)) (n_next n) = on g tail keys (hd 0 l)) by (unfold at_node, on; cbn; now rewrite Nx). cbv zeta. first [rewrite AT|unfold on in AT at 1; rewrite AT].
  destruct (n_bound n) eqn:Bn; [|reflexivity]. cbn [andb]. cbn [on r_tail r_params r_keys params0 p_len]. rewrite Nat.add_0_r.
  destruct (N.eqb_spec (n_key n) 0) as [K|K]; [reflexivity|]. cbn [orb]. destruct (Sf n Hn Bn) as [_ X]. destruct (X K) as [X1 X2].
  replace (0 <=? Z.of_nat tail + Z.of_nat (n_depth n) + 0 - 1)%Z with true by lia.
  replace (Z.to_nat (Z.of_nat tail + Z.of_nat (n_depth n) + 0 - 1)) with (tail + n_depth n - 1) by lia.
  destruct (nth_error keys (tail + n_depth n - 1)) as [k|] eqn:E; [|apply nth_error_None in E; lia].
  destruct (n_key n =? k)%N; reflexivity.
Qed.
Lemma walk_fuel_any g tail keys : forall c f f', linked c -> Forall (safe tail keys) c -> length c <= f -> length c <= f' -> walk f b (on g tail keys (hd 0 c)) = walk f' b (on g tail keys (hd 0 c)).
Proof.
  induction c as [|i c IH]; intros f f' Lk Sf F F'.
  - destruct f, f'; reflexivity.
  - inversion Lk as [|i' l' n Hi Hn Nx Lk']; subst. cbn [length] in F, F'. destruct f as [|f]; [lia|]. destruct f' as [|f']; [lia|]. cbn [hd].
    pose proof (Forall_inv Sf) as Sf0. apply Forall_inv_tail in Sf. rewrite !(walk_step g tail keys i c n) by assumption.
    destruct (hit tail keys i); [|reflexivity]. apply IH; [exact Lk'|exact Sf|lia|lia].
Qed.
Inductive offers (g tail : nat) (keys : list N) : resolver -> list (N * N * nat) -> Prop :=
| of_none r : next b r = Some (fresh g, None) -> offers g tail keys r []
| of_one r i bd m l : next b r = Some (on g tail keys i, Some bd) -> nth_error (b_modules b) (bd_module bd) = Some m -> offers g tail keys (on g tail keys i) l -> offers g tail keys r ((m, bd_id bd, bd_len bd) :: l).
Lemma offers_yields g tail keys r l : offers g tail keys r l -> r_group r = g -> yields b r l.
Proof.
  induction 1 as [r E|r i bd m l E1 E2 E3 IH]; intros G.
  - eapply y_none; [exact E|]. unfold reset, fresh. now rewrite G.
  - eapply y_one; [exact E1|exact E2|]. now apply IH.
Qed.
Lemma offers_chain g tail keys : forall c, linked c -> Forall (safe tail keys) c -> length c <= walk_fuel -> offers g tail keys (on g tail keys (hd 0 c)) (flat_map (hit tail keys) c).
Proof.
  induction c as [|i c IH]; intros Lk Sf F.
  - cbn [flat_map hd]. apply of_none. unfold next. cbn [on r_pending]. generalize walk_fuel as f. intros f. now destruct f.
  - inversion Lk as [|i' l' n Hi Hn Nx Lk']; subst. cbn [length] in F. pose proof (Forall_inv Sf) as Sf0. apply Forall_inv_tail in Sf.
    specialize (IH Lk' Sf ltac:(lia)). cbn [flat_map hd].
    assert (NX : next b (on g tail keys i) = match hit tail keys i with
      | [] => next b (on g tail keys (hd 0 c))
      | _ => Some (on g tail keys (hd 0 c), Some (mkBd i (Nat.max 1 (n_depth n)) (n_module n) (n_id n) params0)) end).
    { unfold next. cbn [on r_pending]. fold (on g tail keys i) (on g tail keys (hd 0 c)).
      assert (W : walk walk_fuel b (on g tail keys i) = walk (S walk_fuel) b (on g tail keys i)).
      { apply (walk_fuel_any g tail keys (i :: c)); [exact Lk|now constructor|cbn [length]; lia|cbn [length]; lia]. }
      rewrite W. now rewrite (walk_step g tail keys i c n). }
    unfold hit at 1. unfold hit in NX at 1. rewrite Hn in *. destruct (n_bound n && _) eqn:Bn.
    + cbn [app]. assert (Bn' : n_bound n = true) by (now apply andb_true_iff in Bn). destruct (Sf0 n Hn Bn') as [M _].
      change (n_id n) with (bd_id (mkBd i (Nat.max 1 (n_depth n)) (n_module n) (n_id n) params0)). change (Nat.max 1 (n_depth n)) with (bd_len (mkBd i (Nat.max 1 (n_depth n)) (n_module n) (n_id n) params0)) at 2.
      eapply of_one; [exact NX| |exact IH]. cbn [bd_module]. now apply nth_error_nth'.
    + cbn [app]. inversion IH as [r E1 E2 E3|r r' bd m l E1 E2 E3 E4 E5].
      * apply of_none. rewrite NX. exact E1.
      * eapply of_one; [rewrite NX; exact E1|exact E2|exact E3].
Qed.

(** the nodes visited from a position, level by level *)
Lemma linked_app p l c : linked c -> hd 0 c = p -> (exists pre, kids gs p = pre ++ l) -> linked (l ++ c).
Proof.
  intros Lk Hc. induction l as [|i l IH]; intros [pre E]; [exact Lk|]. cbn [app].
  assert (Hi : In i (kids gs p)) by (rewrite E; apply in_or_app; right; now left).
  destruct (kid_gt _ _ _ _ _ I Hi) as [G _]. destruct (kid_info _ _ _ _ _ I Hi) as (g & q & k' & n & A & Hn & O).
  destruct (ok_key _ _ _ _ _ _ _ _ O q k' eq_refl) as (_ & _ & _ & _ & _ & NX). rewrite (after_split _ _ _ _ _ E) in NX.
  apply (lk_cons i (l ++ c) n); [lia|exact Hn| |].
  - rewrite NX. destruct l; [symmetry; exact Hc|reflexivity].
  - apply IH. exists (pre ++ [i]). now rewrite <- app_assoc.
Qed.
Lemma filter_hd_split {A} (f : A -> bool) l a : forall r, filter f l = a :: r -> exists pre post, l = pre ++ a :: post /\ filter f (a :: post) = a :: r.
Proof.
  induction l as [|x l IH]; intros r E; [discriminate|]. cbn [filter] in E. destruct (f x) eqn:F.
  - injection E as -> <-. exists [], l. split; [reflexivity|]. cbn [filter]. now rewrite F.
  - destruct (IH _ E) as (pre & post & -> & X). exists (x :: pre), post. auto.
Qed.

Lemma flat_map_filter {A C} (f : A -> bool) (h h' : A -> list C) l : (forall x, In x l -> h x = if f x then h' x else []) -> flat_map h l = flat_map h' (filter f l).
Proof.
  induction l as [|x l IH]; intros E; [reflexivity|]. cbn [flat_map filter]. rewrite (E x) by now left. rewrite IH by (intros; apply E; now right). destruct (f x); reflexivity.
Qed.
Definition mark (q : list N) (mi : N * N) : N * N * nat := (mi, Nat.max 1 (length q)).
Lemma obs_mark g q : map (mark q) (obs b gs g q) = flat_map (fun i => map (mark q) (view (b_modules b) (get b i))) (ids gs g q).
Proof. unfold obs. induction (ids gs g q) as [|i l IH]; [reflexivity|]. cbn [flat_map]. now rewrite map_app, IH. Qed.

Lemma chain_of g tail keys : forall q, look gs g q <> 0 -> (exists s, skipn tail keys = q ++ s) ->
  exists c, linked c /\ hd 0 c = look gs g q /\ Forall (safe tail keys) c /\ length c <= slots * (length q + 1) /\
    flat_map (hit tail keys) c = flat_map (fun q => map (mark q) (obs b gs g q)) (beginnings (length q) q).
Proof.
  intros q. induction q as [|k q IH] using rev_ind; intros L [s Es].
  - destruct (node_at _ _ L) as (p & n & A & Hn & O). destruct (ok_root _ _ _ _ _ _ _ _ O eq_refl) as (R1 & R2 & R3 & R4).
    set (i := look gs g []) in *. exists [i]. split; [apply (lk_cons i [] n); auto; constructor|]. split; [reflexivity|].
    assert (Sf : safe tail keys i). { intros n' Hn' Bn. rewrite Hn in Hn'. injection Hn' as <-. split; [now apply (ok_bound _ _ _ _ _ _ _ _ O)|congruence]. }
    split; [constructor; [exact Sf|constructor]|]. split; [cbn [length]; unfold slots; lia|]. cbn [length beginnings flat_map firstn]. rewrite !app_nil_r.
    assert (EI : ids gs g [] = [i]).
    { destruct (hd_tl_look gs g [] L) as [l EL]. fold i in EL. rewrite EL. destruct l as [|d l]; [reflexivity|]. exfalso.
      assert (D : In d (ids gs g [])) by (rewrite EL; right; now left). apply ids_in in D as [p' D]. destruct (inv_node _ _ _ I _ _ _ _ D) as (nd & _ & OD).
      destruct (ok_root _ _ _ _ _ _ _ _ OD eq_refl) as (_ & W & _). apply ids_nodup_hd in EL as NI. apply NI. left. lia. }
    rewrite obs_mark, EI. cbn [flat_map]. rewrite app_nil_r. unfold hit. rewrite Hn. cbn [view]. destruct (n_bound n) eqn:Bn; [|reflexivity].
    destruct (ok_bound _ _ _ _ _ _ _ _ O Bn) as [D _]. cbn [andb]. rewrite R3. cbn [N.eqb orb map]. unfold mark. rewrite D. reflexivity.
  - pose proof (look_closed _ _ _ L) as L'. destruct (IH L') as (c & C1 & C2 & C3 & C4 & C5); [exists (k :: s); now rewrite <- app_assoc in Es|].
    assert (Len : length (q ++ [k]) <= 15) by (now apply (h_len _ _ _ _ _ H g)).
    set (p := look gs g q) in *. set (i := look gs g (q ++ [k])) in *.
    pose proof (kids_ids _ _ _ _ _ k I L') as KI. fold p in KI. destruct (hd_tl_look gs g (q ++ [k]) L) as [rest EL]. fold i in EL. rewrite EL in KI.
    destruct (filter_hd_split _ _ _ _ KI) as (pre & post & E1 & E2).
    assert (Key : nth_error keys (tail + length (q ++ [k]) - 1) = Some k /\ tail + length (q ++ [k]) <= length keys).
    { assert (tail + length (q ++ [k]) <= length keys) as X.
      { assert (Y : length (skipn tail keys) = length ((q ++ [k]) ++ s)) by (now rewrite Es). rewrite skipn_length, !app_length in Y. rewrite app_length in *. cbn [length] in *. lia. }
      split; [|exact X]. rewrite app_length. cbn [length]. replace (tail + (length q + 1) - 1) with (tail + length q) by lia.
      rewrite <- (firstn_skipn tail keys), Es. rewrite nth_error_app2 by (rewrite firstn_length; lia). rewrite firstn_length, Nat.min_l by (rewrite app_length in X; cbn [length] in X; lia).
      replace (tail + length q - tail) with (length q) by lia. rewrite <- app_assoc. rewrite nth_error_app2, Nat.sub_diag by lia. reflexivity. }
    destruct Key as [Key1 Key2].
    (* a node of this level *)
    assert (Lev : forall j, In j (i :: post) -> exists kj n, at_ gs j = Some (p, g, q ++ [kj]) /\ get b j = Some n /\ node_ok (get b) gs (length (b_modules b)) j p g (q ++ [kj]) n /\ n_key n = kj /\ kj <> 0%N /\ (n_bound n = true -> n_depth n = length (q ++ [k]))).
    { intros j Hj. assert (Q : In j (kids gs p)) by (rewrite E1; apply in_or_app; now right).
      destruct (kid_info _ _ _ _ _ I Q) as (g' & q' & kj & n & A & Hn & O). destruct (ok_key _ _ _ _ _ _ _ _ O q' kj eq_refl) as (X1 & X2 & _ & X & Y & _).
      destruct (node_at _ _ L') as (p0 & n0 & A0 & _). fold p in A0. destruct (look_path _ _ _ _ _ _ _ _ _ I Y X A0) as [-> ->]. exists kj, n.
      split; [exact A|]. split; [exact Hn|]. split; [exact O|]. split; [exact X2|]. split; [exact X1|]. intros Bn. destruct (ok_bound _ _ _ _ _ _ _ _ O Bn) as [D _]. rewrite D, !app_length. cbn [length].
      rewrite app_length in Len. cbn [length] in Len. apply Nat.mod_small. lia. }
    exists ((i :: post) ++ c). split; [apply (linked_app p); [exact C1|exact C2|now exists pre]|]. split; [reflexivity|]. split; [|split].
    + apply Forall_app. split; [|exact C3]. apply Forall_forall. intros j Hj. destruct (Lev j Hj) as (kj & n & A & Hn & O & K1 & K2 & D). intros n' Hn' Bn. rewrite Hn in Hn'. injection Hn' as <-.
      split; [now apply (ok_bound _ _ _ _ _ _ _ _ O)|]. intros _. rewrite (D Bn). split; [rewrite app_length; cbn [length]; lia|exact Key2].
    + rewrite app_length. assert (length (i :: post) <= slots).
      { pose proof (idx_length gs (fun p' _ q' => (p' =? p) && nonempty q')) as Y. fold (kids gs p) in Y. rewrite E1, app_length in Y. pose proof LS. lia. }
      rewrite app_length. cbn [length] in *. nia.
    + rewrite flat_map_app, C5. rewrite app_length. cbn [length]. rewrite Nat.add_1_r. cbn [beginnings flat_map].
      replace (firstn (S (length q)) (q ++ [k])) with (q ++ [k]) by (symmetry; apply firstn_all2; rewrite app_length; cbn [length]; lia).
      f_equal.
      * rewrite obs_mark. rewrite EL, <- E2. change (hit tail keys i ++ flat_map (hit tail keys) post) with (flat_map (hit tail keys) (i :: post)). apply (flat_map_filter (has_key gs k)). intros j Hj. destruct (Lev j Hj) as (kj & n & A & Hn & O & K1 & K2 & D).
        unfold has_key. rewrite A, last_last. unfold hit. rewrite Hn. cbn [view]. rewrite K1. replace (kj =? 0)%N with false by lia. cbn [orb].
        destruct (n_bound n) eqn:Bn; [|now destruct (kj =? k)%N]. rewrite (D eq_refl), Key1. cbn [andb]. destruct (kj =? k)%N; reflexivity.
      * assert (X : forall m, m <= length q -> beginnings m (q ++ [k]) = beginnings m q).
        { induction m as [|m IHm]; intros Hm; cbn [beginnings]; [reflexivity|]. rewrite IHm by lia. f_equal. rewrite firstn_app. replace (S m - length q) with 0 by lia. cbn [firstn]. now rewrite app_nil_r. }
        now rewrite X by lia.
Qed.

(** what a position yields *)
Lemma bound_none g q : look gs g q = 0 -> bound_to B g q = [].
Proof. intros E. rewrite <- (h_obs _ _ _ _ _ H). unfold obs. now rewrite (look_none _ _ _ (inv_zero _ _ _ I) E). Qed.
Lemma expected_longest g ks q : longest g ks q -> expected B g ks = flat_map (fun q => map (mark q) (obs b gs g q)) (beginnings (length q) q).
Proof.
  intros (L & s & -> & X). unfold expected.
  assert (E : forall m, m <= length s -> flat_map (fun q0 => map (fun mi => (mi, Nat.max 1 (length q0))) (bound_to B g q0)) (beginnings (length q + m) (q ++ s)) = flat_map (fun q0 => map (mark q0) (obs b gs g q0)) (beginnings (length q) q)).
  { induction m as [|m IH]; intros Hm.
    - rewrite Nat.add_0_r. assert (Y : forall m, m <= length q -> beginnings m (q ++ s) = beginnings m q).
      { induction m as [|m IHm]; intros Hm'; cbn [beginnings]; [reflexivity|]. rewrite IHm by lia. f_equal. rewrite firstn_app. replace (S m - length q) with 0 by lia. cbn [firstn]. now rewrite app_nil_r. }
      rewrite Y by lia. apply flat_map_ext_in. intros q0 _. now rewrite (h_obs _ _ _ _ _ H).
    - rewrite Nat.add_succ_r. cbn [beginnings flat_map]. rewrite IH by lia.
      replace (firstn (S (length q + m)) (q ++ s)) with (q ++ firstn (S m) s) by (rewrite firstn_app, (firstn_all2 q) by lia; f_equal; f_equal; lia).
      destruct s as [|k s]; [cbn [length] in Hm; lia|]. cbn [firstn].
      rewrite bound_none; [reflexivity|]. destruct (Nat.eq_dec (look gs g (q ++ k :: firstn m s)) 0) as [Z|Z]; [exact Z|]. exfalso.
      change (k :: firstn m s) with ([k] ++ firstn m s) in Z. rewrite app_assoc in Z. now apply look_closed_app in Z. }
  rewrite app_length. apply E. lia.
Qed.
Lemma offers_pos g tail keys q : longest g (skipn tail keys) q -> offers g tail keys (pos g tail keys q) (expected B g (skipn tail keys)).
Proof.
  intros Lg. rewrite (expected_longest _ _ _ Lg). destruct Lg as (L & s & E & _). destruct (chain_of g tail keys q L (ex_intro _ s E)) as (c & C1 & C2 & C3 & C4 & C5).
  rewrite <- C5. unfold pos. rewrite <- C2. apply offers_chain; [exact C1|exact C3|]. pose proof (h_len _ _ _ _ _ H _ _ L). unfold walk_fuel. nia.
Qed.

(** * Sessions *)
Definition waiting (x g tail : nat) (keys : list N) : resolver := mkR x g true tail params0 0 0 false keys.
Lemma gr_ok g : In g gr -> look gs g [] = g /\ look gs g [] <> 0.
Proof. intros G. destruct (h_gr _ _ _ _ _ H g G) as (X & Y & _). split; [exact X|congruence]. Qed.
Lemma offers_waiting g tail keys : In g gr -> skipn tail keys <> [] -> length (skipn tail keys) <= 15 -> offers g tail keys (waiting g g tail keys) (expected B g (skipn tail keys)).
Proof.
  intros G Ne Len. destruct (gr_ok g G) as [R1 R2]. destruct (push_pos g tail keys (skipn tail keys) [] R2) as (q & P1 & P2). cbn [app] in *.
  pose proof (offers_pos g tail keys q P2) as O.
  assert (NX : next b (waiting g g tail keys) = next b (pos g tail keys q)).
  { unfold next, waiting. cbn [r_pending r_node r_group r_tail r_params r_acc r_plen r_ppar r_keys].
    replace (length (skipn tail keys) =? 0) with false by (destruct (skipn tail keys); [congruence|reflexivity]). unfold max_keys. replace (16 <=? length (skipn tail keys)) with false by lia. cbn [orb].
    unfold pos in P1 at 1. rewrite R1 in P1. rewrite P1. cbv beta iota. unfold pos. cbn [r_pending]. cbv beta iota. reflexivity. }
  inversion O as [r E1 E2 E3|r r' bd m l E1 E2 E3 E4 E5].
  - apply of_none. now rewrite NX.
  - eapply of_one; [rewrite NX; exact E1|exact E2|exact E3].
Qed.
Lemma waiting_done x g tail keys : skipn tail keys = [] -> next b (waiting x g tail keys) = Some (fresh g, None).
Proof. intros E. unfold next, waiting. cbn [r_pending r_node r_group r_tail r_params r_acc r_plen r_ppar r_keys]. rewrite E. reflexivity. Qed.
Lemma set_group_on g g' tail keys i : In g' gr -> set_group b (on g tail keys i) g' = if g' =? g then on g tail keys i else waiting g' g' tail keys.
Proof.
  intros G. destruct (h_gr _ _ _ _ _ H g' G) as (_ & N0 & SL & LL & A). unfold set_group. destruct g' as [|g0]; [congruence|]. cbn [pred] in A.
  replace (slots <=? S g0) with false by lia. cbn [on r_group orb]. rewrite (Nat.eqb_sym g (S g0)). destruct (S g0 =? g); [reflexivity|]. cbn [orb].
  destruct (st_group _ _ (h_st _ _ _ _ _ H) g0 ltac:(lia) A) as (x & h & E). rewrite E. reflexivity.
Qed.
Lemma expected_len g ks : ks <> [] -> Forall (fun e => 1 <= snd e <= length ks) (expected B g ks).
Proof.
  intros Ne. apply Forall_forall. intros [mi len] Hi. unfold expected in Hi. apply in_flat_map in Hi as (q & Hq & Hi). apply in_map_iff in Hi as (mi' & E & _). assert (EL : len = Nat.max 1 (length q)) by congruence. rewrite EL. clear E. cbn [snd].
  assert (X : forall n, In q (beginnings n ks) -> length q <= length ks).
  { induction n as [|n IH]; cbn [beginnings]; intros [E|Y].
    - subst q. cbn [firstn length]. lia.
    - contradiction.
    - subst q. rewrite firstn_length. lia.
    - now apply IH. }
  apply X in Hq. destruct ks; [congruence|]. cbn [length] in *. lia.
Qed.
Lemma session_ok : forall answers r g tail keys L, In g gr -> offers g tail keys r L -> skipn tail keys <> [] -> length (skipn tail keys) <= 15 ->
  Forall (fun e => 1 <= snd e <= length (skipn tail keys)) L -> Forall (fun a => In (fst a) gr) answers ->
  session b r answers = Some (told B g (skipn tail keys) L answers).
Proof.
  induction answers as [|[g' pass] answers IH]; intros r g tail keys L G O Ne Len FL FA; [reflexivity|].
  pose proof (Forall_inv FA) as Ga. apply Forall_inv_tail in FA. cbn [fst] in Ga. cbn [session told].
  destruct O as [r E|r i bd m l E1 E2 E3]; [now rewrite E|]. rewrite E1, E2, (set_group_on _ _ _ _ _ Ga).
  pose proof (Forall_inv FL) as F0. apply Forall_inv_tail in FL. cbn [snd] in F0.
  change (chord_of (on g tail keys i) bd) with (firstn (bd_len bd) (skipn tail keys)).
  destruct pass; cbn [andb].
  - destruct (Nat.eqb_spec g' g) as [->|Hg].
    + now rewrite (IH _ _ _ _ _ G E3 Ne Len FL FA).
    + rewrite (IH _ _ _ _ _ Ga (offers_waiting g' tail keys Ga Ne Len) Ne Len (expected_len _ _ Ne) FA). destruct (skipn tail keys); [congruence|reflexivity].
  - assert (SK : skipn (tail + bd_len bd) keys = skipn (bd_len bd) (skipn tail keys)) by apply skipn_add.
    assert (CL : claim (if g' =? g then on g tail keys i else waiting g' g' tail keys) bd = waiting g' g' (tail + bd_len bd) keys).
    { destruct (Nat.eqb_spec g' g) as [->|]; reflexivity. }
    rewrite CL. rewrite <- SK. destruct (skipn (tail + bd_len bd) keys) as [|k ks] eqn:EK.
    + assert (SS : session b (waiting g' g' (tail + bd_len bd) keys) answers = Some []).
      { destruct answers as [|[? ?] ?]; [reflexivity|]. cbn [session]. now rewrite waiting_done. }
      rewrite SS. destruct answers as [|[? ?] ?]; reflexivity.
    + assert (Ne' : skipn (tail + bd_len bd) keys <> []) by (rewrite EK; discriminate).
      assert (Len' : length (skipn (tail + bd_len bd) keys) <= 15) by (rewrite EK, SK, skipn_length; lia).
      rewrite (IH _ _ _ _ _ Ga (offers_waiting g' _ keys Ga Ne' Len') Ne' Len' (expected_len _ _ Ne') FA). rewrite EK. reflexivity.
Qed.
End Resolve.
