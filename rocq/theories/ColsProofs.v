(** Proofs about the layout of matches in columns. *)
From Verif Require Import Base ColsModel ColsSpec.
Local Open Scope N_scope.

(** ** Columns and cells *)
Lemma column_small v cnt l j : (l < cnt)%nat -> (column_of v cnt l j < j + 1)%nat.
Proof.
  intro H. unfold column_of. destruct v.
  - assert (R : (0 < (cnt + j) / (j + 1))%nat) by (apply Nat.div_str_pos; lia).
    apply Nat.div_lt_upper_bound; [lia|]. pose proof (Nat.div_mod (cnt + j) (j + 1) ltac:(lia)) as D. pose proof (Nat.mod_upper_bound (cnt + j) (j + 1) ltac:(lia)) as M.
    set (q := ((cnt + j) / (j + 1))%nat) in *. set (r := ((cnt + j) mod (j + 1))%nat) in *. nia.
  - apply Nat.mod_upper_bound. lia.
Qed.
Lemma cell_column v cnt n r c : (0 < n)%nat -> (c < n)%nat -> (r < rows cnt n)%nat -> column_of v cnt (cell v cnt n r c) (n - 1) = c.
Proof.
  intros N C R. unfold column_of, cell. replace (n - 1 + 1)%nat with n by lia. destruct v.
  - change ((cnt + (n - 1)) / n)%nat with (rows cnt n). symmetry. apply (Nat.div_unique _ _ c r); lia.
  - symmetry. apply (Nat.mod_unique _ _ r c); lia.
Qed.
Lemma column_cell v cnt n l : (0 < n)%nat -> (l < cnt)%nat ->
  exists r, (r < rows cnt n)%nat /\ cell v cnt n r (column_of v cnt l (n - 1)) = l.
Proof.
  intros N L. unfold column_of, cell. replace (n - 1 + 1)%nat with n by lia. change ((cnt + (n - 1)) / n)%nat with (rows cnt n).
  assert (R : (0 < rows cnt n)%nat) by (apply Nat.div_str_pos; lia). destruct v.
  - exists (l mod rows cnt n)%nat. split; [apply Nat.mod_upper_bound; lia|]. pose proof (Nat.div_mod l (rows cnt n) ltac:(lia)). lia.
  - exists (l / n)%nat. split; [|pose proof (Nat.div_mod l n ltac:(lia)); lia].
    unfold rows. apply Nat.div_lt_upper_bound; [lia|]. pose proof (Nat.div_mod (cnt + (n - 1)) n ltac:(lia)). pose proof (Nat.mod_upper_bound (cnt + (n - 1)) n ltac:(lia)). lia.
Qed.
Lemma in_column_of i n c l : (0 < n)%nat -> (c < n)%nat -> (l < count i)%nat ->
  in_column i n c l = (column_of (i_vertical i) (count i) l (n - 1) =? c)%nat.
Proof.
  intros N C L. unfold in_column. destruct (Nat.eqb_spec (column_of (i_vertical i) (count i) l (n - 1)) c) as [<-|NE].
  - apply existsb_exists. destruct (column_cell (i_vertical i) (count i) n l N L) as (r & R & E). exists r. split; [apply in_seq; lia|apply Nat.eqb_eq; exact E].
  - destruct (existsb _ _) eqn:X; [|reflexivity]. exfalso. apply existsb_exists in X as (r & R & E). apply in_seq in R. apply Nat.eqb_eq in E. apply NE. rewrite <- E.
    apply cell_column; lia.
Qed.

(** ** The state after some matches *)
Section Inp.
Variable i : input.
Let pad := col_padding i.
Definition part (pre : list item) (n c : nat) : list item :=
  map snd (filter (fun p => (column_of (i_vertical i) (count i) (fst p) (n - 1) =? c)%nat) (combine (seq 0 (length pre)) pre)).
Definition fa (x : item) : N := if no_right_justify i then fst x else fst x + desc_len i x.
Definition fb (x : item) : N := if no_right_justify i then desc_len i x else 0.
Definition colA (pre : list item) (n c : nat) : N := N.max 1 (longest fa (part pre n c)).
Definition colB (pre : list item) (n c : nat) : N := longest fb (part pre n c) + pad.
Definition lineL (pre : list item) (n : nat) : N := nsum (map (fun c => colA pre n c + colB pre n c) (seq 0 n)).

Lemma longest_app f a b : longest f (a ++ b) = N.max (longest f a) (longest f b).
Proof. unfold longest. rewrite map_app. induction (map f a) as [|x l IH]; cbn [app fold_right]; lia. Qed.
Lemma combine_snoc {A B} (a : list A) (b : list B) x y : length a = length b -> combine (a ++ [x]) (b ++ [y]) = combine a b ++ [(x, y)].
Proof. revert b. induction a as [|u a IH]; intros [|v b] H; cbn [length] in H; try lia; [reflexivity|]. cbn [app combine]. rewrite IH by lia. reflexivity. Qed.
Lemma part_snoc pre x n c : part (pre ++ [x]) n c =
  part pre n c ++ if (column_of (i_vertical i) (count i) (length pre) (n - 1) =? c)%nat then [x] else [].
Proof.
  unfold part. rewrite app_length. cbn [length]. rewrite seq_app. cbn [seq plus]. rewrite combine_snoc by (rewrite seq_length; reflexivity).
  rewrite filter_app, map_app. f_equal. cbn [filter fst]. destruct (_ =? c)%nat; reflexivity.
Qed.
Lemma longest1 f x : longest f [x] = f x.
Proof. unfold longest. cbn [map fold_right]. lia. Qed.
Lemma colA_snoc pre x n c : colA (pre ++ [x]) n c = if (column_of (i_vertical i) (count i) (length pre) (n - 1) =? c)%nat then N.max (colA pre n c) (fa x) else colA pre n c.
Proof.
  unfold colA. rewrite part_snoc, longest_app. destruct (_ =? c)%nat; [rewrite longest1; lia|]. unfold longest at 2. cbn [map fold_right]. lia.
Qed.
Lemma colB_snoc pre x n c : colB (pre ++ [x]) n c = if (column_of (i_vertical i) (count i) (length pre) (n - 1) =? c)%nat then N.max (colB pre n c) (fb x + pad) else colB pre n c.
Proof.
  unfold colB. rewrite part_snoc, longest_app. destruct (_ =? c)%nat; [rewrite longest1; lia|]. unfold longest at 2. cbn [map fold_right]. lia.
Qed.

Lemma nsum_app a b : nsum (a ++ b) = nsum a + nsum b.
Proof. unfold nsum. induction a as [|x a IH]; cbn [app fold_right]; [reflexivity|]. rewrite IH. apply N.add_assoc. Qed.
Lemma nsum_upd (f g : nat -> N) k : forall n s, (s <= k < s + n)%nat -> (forall c, c <> k -> g c = f c) -> f k <= g k ->
  nsum (map g (seq s n)) = nsum (map f (seq s n)) + (g k - f k).
Proof.
  induction n as [|n IH]; intros s H E L; [lia|]. cbn [seq map nsum fold_right]. fold (nsum (map g (seq (S s) n))). fold (nsum (map f (seq (S s) n))).
  destruct (Nat.eq_dec s k) as [->|NE].
  - assert (X : map g (seq (S k) n) = map f (seq (S k) n)). { apply map_ext_in. intros c I. apply in_seq in I. apply E. lia. }
    rewrite X. lia.
  - rewrite (IH (S s)) by (try lia; auto). rewrite (E s NE). lia.
Qed.
Lemma set_arr_map (f g : nat -> N * N) k : forall n s, (forall c, c <> (s + k)%nat -> g c = f c) -> (k < n)%nat -> set_arr (map f (seq s n)) k (g (s + k)%nat) = map g (seq s n).
Proof.
  induction k as [|k IH]; intros n s E H; (destruct n as [|n]; [lia|]); cbn [seq map set_arr].
  - rewrite Nat.add_0_r. f_equal. apply map_ext_in. intros c I. apply in_seq in I. symmetry. apply E. lia.
  - f_equal; [symmetry; apply E; lia|]. replace (s + S k)%nat with (S s + k)%nat in * by lia. apply IH; [exact E|lia].
Qed.
Lemma nth_map_seq {A} (f : nat -> A) n k : (k < n)%nat -> nth_error (map f (seq 0 n)) k = Some (f k).
Proof. intro H. rewrite nth_error_map, (nth_error_nth' _ 0%nat) by (rewrite seq_length; exact H). rewrite seq_nth by exact H. reflexivity. Qed.

Lemma lineL_snoc pre (x : item) n : (length pre < count i)%nat -> (0 < n)%nat ->
  let k := column_of (i_vertical i) (count i) (length pre) (n - 1) in
  lineL (pre ++ [x]) n = lineL pre n + (N.max (colA pre n k) (fa x) - colA pre n k) + (N.max (colB pre n k) (fb x + pad) - colB pre n k).
Proof.
  intros H N k. unfold lineL. rewrite (nsum_upd (fun c => colA pre n c + colB pre n c) (fun c => colA (pre ++ [x]) n c + colB (pre ++ [x]) n c) k).
  - rewrite colA_snoc, colB_snoc. fold k. rewrite Nat.eqb_refl. lia.
  - pose proof (column_small (i_vertical i) (count i) (length pre) (n - 1) H). fold k in H0. lia.
  - intros c C. rewrite colA_snoc, colB_snoc. fold k. destruct (Nat.eqb_spec k c); [congruence|reflexivity].
  - rewrite colA_snoc, colB_snoc. fold k. rewrite Nat.eqb_refl. lia.
Qed.
Lemma lineL_mono pre x n : (length pre < count i)%nat -> (0 < n)%nat -> lineL pre n <= lineL (pre ++ [x]) n.
Proof. intros H N. rewrite (lineL_snoc pre x n H N). cbv zeta. lia. Qed.

(** ** One match *)
Hypothesis SM : small i.
Definition entry_ok (pre : list item) (n : nat) (c : cinfo) : Prop :=
  length (c_arr c) = n /\
  (c_valid c = true -> c_arr c = map (fun k => (colA pre n k, colB pre n k)) (seq 0 n) /\ c_line c = lineL pre n /\
     (lineL pre n < line_length i \/ lineL pre n = N.of_nat n * (1 + pad) /\ lineL pre n <= line_length i)) /\
  (c_valid c = false -> line_length i <= lineL pre n).
Lemma pad_val : pad = 2 \/ pad = 4.
Proof. unfold pad, col_padding. destruct (i_descs i); auto. Qed.
Lemma desc_len_small x : desc_len i x <= 1030.
Proof.
  unfold desc_len. destruct (i_descs i) eqn:D; [|lia]. cbv zeta. destruct (N.eqb_spec (N.min 1024 (snd x)) 0); [lia|].
  unfold w16, desc_padding, paren_cells. rewrite D. cbn [negb]. destruct (no_right_justify i); rewrite N.mod_small by lia; lia.
Qed.
Lemma w16_small n : n < 65536 -> w16 n = n.
Proof. intro H. unfold w16. apply N.mod_small. exact H. Qed.
Lemma colB_pad pre n c : no_right_justify i = false -> colB pre n c = pad.
Proof.
  intro E. unfold colB, longest. assert (X : forall l, fold_right N.max 0 (map fb l) = 0).
  { induction l as [|x l IH]; [reflexivity|]. cbn [map fold_right]. rewrite IH. unfold fb. rewrite E. reflexivity. }
  rewrite X. lia.
Qed.

Lemma fit_ok pre (x : item) n c : (length pre < count i)%nat -> (0 < n)%nat -> fst x + i_screen i < 60000 -> entry_ok pre n c ->
  exists c', fit i (length pre) (fst x) (desc_len i x) c = Some c' /\ entry_ok (pre ++ [x]) n c'.
Proof.
  intros L N X (EL & EV & EI). unfold fit. destruct (c_valid c) eqn:V; cbn [negb].
  2: { exists c. split; [reflexivity|]. split; [exact EL|]. split; [congruence|]. intros _. eapply N.le_trans; [exact (EI eq_refl)|apply lineL_mono; auto]. }
  destruct (EV eq_refl) as (EA & ELn & ELe). clear EV EI. rewrite EL. cbv zeta. set (k := column_of (i_vertical i) (count i) (length pre) (n - 1)).
  assert (K : (k < n)%nat) by (pose proof (column_small (i_vertical i) (count i) (length pre) (n - 1) L); lia).
  rewrite EA, (nth_map_seq _ n k K). pose proof (lineL_snoc pre x n L N) as LS. cbv zeta in LS. fold k in LS.
  assert (GA : forall q, colA (pre ++ [x]) n q = if (k =? q)%nat then N.max (colA pre n q) (fa x) else colA pre n q) by (intro q; apply colA_snoc).
  assert (GB : forall q, colB (pre ++ [x]) n q = if (k =? q)%nat then N.max (colB pre n q) (fb x + pad) else colB pre n q) by (intro q; apply colB_snoc).
  set (a0 := colA pre n k) in *. set (b0 := colB pre n k) in *.
  pose proof (desc_len_small x) as DS. destruct SM as [S1 _]. pose proof pad_val as PV.
  assert (LL : line_length i <= i_screen i + 3) by (unfold line_length; fold pad; lia).
  assert (LP : lineL pre n <= line_length i) by (destruct ELe as [|[]]; lia).
  (* the new values *)
  set (a := if no_right_justify i then N.max a0 (fst x) else w16 (fst x + desc_len i x)).
  set (b := if no_right_justify i then w16 (desc_len i x + col_padding i) else col_padding i).
  assert (HA : N.max a0 (fa x) = N.max a0 a /\ fa x <= fst x + 1030).
  { unfold a, fa. destruct (no_right_justify i); [lia|]. rewrite w16_small by lia. lia. }
  assert (HB : N.max b0 (fb x + pad) = N.max b0 b /\ fb x + pad <= 1034).
  { unfold b, fb. destruct (no_right_justify i) eqn:NRJ; [rewrite w16_small by (fold pad; lia)|]; fold pad; clear - DS PV; split; try reflexivity; try lia. all: match goal with |- ?g => idtac g end. }
  destruct HA as [HA HA']. destruct HB as [HB HB']. rewrite HA, HB in LS.
  set (c1 := if a0 <? a then _ else c). set (a1 := if a0 <? a then a else a0). fold pad. fold b.
  assert (A1 : a1 = N.max a0 a) by (unfold a1; destruct (N.ltb_spec a0 a); lia).
  assert (C1 : c_line c1 = lineL pre n + (N.max a0 a - a0) /\
     c_arr c1 = map (fun q => if (k =? q)%nat then (N.max a0 a, b0) else (colA pre n q, colB pre n q)) (seq 0 n) /\
     c_valid c1 = if a0 <? a then (lineL pre n + (N.max a0 a - a0) <? line_length i) else true).
  { unfold c1. destruct (N.ltb_spec a0 a) as [Q|Q].
    - cbn [c_line c_arr c_valid]. rewrite ELn, w16_small by lia. replace (N.max a0 a) with a by lia. split; [reflexivity|]. split; [|reflexivity].
      rewrite <- (set_arr_map (fun q => (colA pre n q, colB pre n q)) (fun q => if (k =? q)%nat then (a, b0) else (colA pre n q, colB pre n q)) k n 0); [|intros q Hq; destruct (Nat.eqb_spec k q); [lia|reflexivity]|exact K].
      cbn [plus]. rewrite Nat.eqb_refl. reflexivity.
    - replace (N.max a0 a) with a0 by lia. split; [rewrite ELn; lia|]. split; [|exact V]. rewrite EA. apply map_ext. intro q. destruct (Nat.eqb_spec k q) as [<-|]; reflexivity. }
  destruct C1 as (C1l & C1a & C1v).
  eexists. split; [reflexivity|].
  set (c2 := if b0 <? b then _ else c1).
  assert (C2 : c_line c2 = lineL (pre ++ [x]) n /\
     c_arr c2 = map (fun q => (colA (pre ++ [x]) n q, colB (pre ++ [x]) n q)) (seq 0 n) /\
     c_valid c2 = if (a0 <? a) || (b0 <? b) then (lineL (pre ++ [x]) n <? line_length i) else true).
  { assert (GG : map (fun q => (colA (pre ++ [x]) n q, colB (pre ++ [x]) n q)) (seq 0 n) = map (fun q => if (k =? q)%nat then (N.max a0 a, N.max b0 b) else (colA pre n q, colB pre n q)) (seq 0 n)).
    { apply map_ext. intro q. rewrite GA, GB. destruct (Nat.eqb_spec k q) as [<-|]; [fold a0; fold b0; rewrite HA, HB; reflexivity|reflexivity]. }
    unfold c2. destruct (N.ltb_spec b0 b) as [Q|Q].
    - cbn [c_line c_arr c_valid]. rewrite C1l, w16_small by lia. replace (lineL pre n + (N.max a0 a - a0) + (b - b0)) with (lineL (pre ++ [x]) n) by lia.
      split; [reflexivity|]. split; [|rewrite orb_true_r; reflexivity]. rewrite GG, C1a.
      rewrite <- (set_arr_map (fun q => if (k =? q)%nat then (N.max a0 a, b0) else (colA pre n q, colB pre n q)) (fun q => if (k =? q)%nat then (N.max a0 a, N.max b0 b) else (colA pre n q, colB pre n q)) k n 0); [|intros q Hq; destruct (Nat.eqb_spec k q); [lia|reflexivity]|exact K].
      cbn [plus]. rewrite Nat.eqb_refl, A1. replace (N.max b0 b) with b by lia. reflexivity.
    - rewrite orb_false_r. split; [rewrite C1l; lia|]. split; [|rewrite C1v; destruct (a0 <? a); [f_equal; lia|reflexivity]].
      rewrite GG, C1a. replace (N.max b0 b) with b0 by lia. reflexivity. }
  destruct C2 as (C2l & C2a & C2v). split; [rewrite C2a, map_length, seq_length; reflexivity|]. split.
  - intro VV. split; [exact C2a|]. split; [exact C2l|]. rewrite C2v in VV. destruct (N.ltb_spec a0 a), (N.ltb_spec b0 b); cbn [orb] in VV; try (left; lia).
    replace (lineL (pre ++ [x]) n) with (lineL pre n) by lia. exact ELe.
  - intro VV. rewrite C2v in VV. destruct ((a0 <? a) || (b0 <? b)); [lia|discriminate].
Qed.

(** ** All matches *)
Definition table_ok (pre : list item) (top : nat) (t : list cinfo) : Prop :=
  (length t <= top)%nat /\ (forall j c, nth_error t j = Some c -> entry_ok pre (j + 1) c) /\
  (forall j, (length t <= j < top)%nat -> line_length i <= lineL pre (j + 1)).
Lemma fit_all_nth f m d t t' : fit_all i f m d t = Some t' -> length t' = length t /\ forall j c', nth_error t' j = Some c' -> exists c, nth_error t j = Some c /\ fit i f m d c = Some c'.
Proof.
  revert t'. induction t as [|c t IH]; intros t' H; cbn [fit_all] in H.
  - injection H as <-. split; [reflexivity|]. intros [|j] c' X; discriminate.
  - destruct (fit i f m d c) as [c1|] eqn:F; [|discriminate]. destruct (fit_all i f m d t) as [t1|]; [|discriminate]. injection H as <-.
    destruct (IH t1 eq_refl) as [A B]. split; [cbn [length]; lia|]. intros [|j] c' X; cbn [nth_error] in *; [injection X as <-; eauto|auto].
Qed.
Lemma fit_all_some f m d t : (forall c, In c t -> exists c', fit i f m d c = Some c') -> exists t', fit_all i f m d t = Some t'.
Proof.
  induction t as [|c t IH]; intro H; cbn [fit_all]; [eauto|]. destruct (H c (or_introl eq_refl)) as (c' & E). rewrite E.
  destruct IH as (t' & E'); [intros q Q; apply H; right; exact Q|]. rewrite E'. eauto.
Qed.
Lemma drop_invalid_spec t : exists r, t = drop_invalid t ++ r /\ Forall (fun c => c_valid c = false) r /\
  (drop_invalid t = [] \/ exists p c, drop_invalid t = p ++ [c] /\ c_valid c = true).
Proof.
  induction t as [|c t (r & E & F & L)]; cbn [drop_invalid].
  - exists []. split; [reflexivity|]. split; [apply Forall_nil|auto].
  - destruct (drop_invalid t) as [|d q] eqn:D.
    + cbn [app] in E. subst r. destruct (c_valid c) eqn:V.
      * exists t. split; [reflexivity|]. split; [exact F|]. right. exists [], c. auto.
      * exists (c :: t). split; [reflexivity|]. split; [apply Forall_cons; auto|auto].
    + exists r. split; [cbn [app] in *; f_equal; exact E|]. split; [exact F|]. right. destruct L as [L|(p & e & L & V)]; [discriminate|].
      exists (c :: p), e. split; [cbn [app]; f_equal; exact L|exact V].
Qed.
Lemma table_step pre (x : item) top t : (length pre < count i)%nat -> fst x + i_screen i < 60000 -> table_ok pre top t ->
  exists t', fit_all i (length pre) (fst x) (desc_len i x) t = Some t' /\ table_ok (pre ++ [x]) top (drop_invalid t') /\
    (drop_invalid t' = [] \/ exists p c, drop_invalid t' = p ++ [c] /\ c_valid c = true).
Proof.
  intros L X (T1 & T2 & T3). destruct (fit_all_some (length pre) (fst x) (desc_len i x) t) as (t' & E).
  { intros c I. apply In_nth_error in I as (j & I). destruct (fit_ok pre x (j + 1) c L ltac:(lia) X (T2 j c I)) as (c' & F & _). eauto. }
  exists t'. split; [exact E|]. destruct (fit_all_nth _ _ _ _ _ E) as [EL EN]. destruct (drop_invalid_spec t') as (r & D1 & D2 & D3). split; [|exact D3].
  assert (EO : forall j c, nth_error t' j = Some c -> entry_ok (pre ++ [x]) (j + 1) c).
  { intros j c' J. destruct (EN j c' J) as (c & A & B). destruct (fit_ok pre x (j + 1) c L ltac:(lia) X (T2 j c A)) as (c2 & F & G). congruence. }
  assert (LT : length t' = (length (drop_invalid t') + length r)%nat) by (rewrite D1 at 1; apply app_length).
  split; [lia|]. split.
  - intros j c J. apply EO. rewrite D1, nth_error_app1; [exact J|]. apply nth_error_Some. congruence.
  - intros j J. destruct (Nat.lt_ge_cases j (length t')) as [Q|Q].
    + destruct (nth_error t' j) as [c|] eqn:NE; [|apply nth_error_None in NE; lia]. destruct (EO j c NE) as (_ & _ & Z). apply Z.
      rewrite D1, nth_error_app2 in NE by lia. apply nth_error_In in NE. rewrite Forall_forall in D2. auto.
    + eapply N.le_trans; [apply (T3 j); lia|apply lineL_mono; [exact L|lia]].
Qed.
Definition maxes_ok (pre : list item) (mx : maxes) : Prop :=
  x_match mx = longest fst pre /\ x_desc mx = longest (desc_len i) pre /\ x_len mx = longest (fun x => fst x + desc_len i x) pre.
Lemma more_ok pre x mx : maxes_ok pre mx -> maxes_ok (pre ++ [x]) (more i x mx).
Proof.
  intros (A & B & C). unfold more, maxes_ok. cbv zeta. cbn [x_match x_desc x_len]. rewrite !longest_app, !longest1, A, B, C. split; [reflexivity|]. split; [|reflexivity].
  destruct (i_descs i) eqn:D; [reflexivity|]. replace (desc_len i x) with 0 by (unfold desc_len; rewrite D; reflexivity). lia.
Qed.
Lemma loop_ok xs : forall pre top mx t, i_items i = pre ++ xs -> table_ok pre top t -> maxes_ok pre mx ->
  (pre = [] \/ t = [] \/ exists p c, t = p ++ [c] /\ c_valid c = true) ->
  exists mx' t', loop i false (length pre) xs mx t = Some (mx', t') /\ table_ok (i_items i) top t' /\ maxes_ok (i_items i) mx' /\
    (i_items i = [] \/ t' = [] \/ exists p c, t' = p ++ [c] /\ c_valid c = true).
Proof.
  induction xs as [|x xs IH]; intros pre top mx t E T M V.
  - rewrite app_nil_r in E. subst pre. exists mx, t. split; [reflexivity|]. auto.
  - assert (L : (length pre < count i)%nat) by (unfold count; rewrite E, app_length; cbn [length]; lia).
    assert (X : fst x + i_screen i < 60000). { destruct SM as [_ S2]. rewrite Forall_forall in S2. apply S2. rewrite E. apply in_or_app. right. left. reflexivity. }
    destruct (table_step pre x top t L X T) as (t' & F & T' & V'). cbn [loop]. rewrite F.
    destruct (IH (pre ++ [x]) top (more i x mx) (drop_invalid t')) as (mx2 & t2 & R & A & B & C).
    + rewrite <- app_assoc. exact E.
    + exact T'.
    + apply more_ok. exact M.
    + right. exact V'.
    + rewrite app_length in R. cbn [length] in R. rewrite Nat.add_1_r in R. exists mx2, t2. auto.
Qed.
Lemma loop_fixed xs : forall pre mx t, i_items i = pre ++ xs -> maxes_ok pre mx ->
  exists mx', loop i true (length pre) xs mx t = Some (mx', t) /\ maxes_ok (i_items i) mx'.
Proof.
  induction xs as [|x xs IH]; intros pre mx t E M.
  - rewrite app_nil_r in E. subst pre. exists mx. split; [reflexivity|exact M].
  - cbn [loop]. destruct (IH (pre ++ [x]) (more i x mx) t) as (mx2 & R & B).
    + rewrite <- app_assoc. exact E.
    + apply more_ok. exact M.
    + rewrite app_length in R. cbn [length] in R. rewrite Nat.add_1_r in R. eauto.
Qed.

Definition top : nat := Nat.min 50 (N.to_nat (if N.of_nat (count i) <? max_idx i then N.of_nat (count i) else max_idx i)).
Lemma part_nil n c : part [] n c = [].
Proof. reflexivity. Qed.
Lemma lineL_nil n : lineL [] n = N.of_nat n * (1 + pad).
Proof.
  unfold lineL. rewrite (map_ext _ (fun _ => 1 + pad)) by (intro c; unfold colA, colB; rewrite part_nil; unfold longest; cbn [map fold_right]; lia).
  generalize 0%nat. induction n as [|m IH]; intro s; [reflexivity|]. cbn [seq map nsum fold_right]. fold (nsum (map (fun _ : nat => 1 + pad) (seq (S s) m))). rewrite IH. lia.
Qed.
Lemma map_const {A} (v : A) n : forall s, map (fun _ : nat => v) (seq s n) = repeat v n.
Proof. induction n as [|n IH]; intro s; [reflexivity|]. cbn [seq map repeat]. rewrite IH. reflexivity. Qed.
Lemma init_ok t : init_info i = Some t -> length t = top /\ table_ok [] top t.
Proof.
  unfold init_info. destruct (i_max_matches i <? 0)%Z; [discriminate|]. destruct (negb _ && _); [discriminate|]. cbv zeta. fold top. intro H. injection H as <-.
  rewrite map_length, seq_length. split; [reflexivity|]. split; [rewrite map_length, seq_length; lia|]. rewrite map_length, seq_length. split; [|lia].
  intros j c J. assert (JT : (j < top)%nat).
  { destruct (Nat.lt_ge_cases j top) as [Q|Q]; [exact Q|]. exfalso. rewrite (proj2 (nth_error_None _ _)) in J; [discriminate|]. rewrite map_length, seq_length. exact Q. }
  rewrite (nth_map_seq _ top j JT) in J. injection J as <-. cbn [c_arr c_valid c_line].
  split; [apply repeat_length|]. cbn [c_valid]. split; [|discriminate]. intros _. fold pad.
  assert (W : N.of_nat (j + 1) * (1 + pad) <= line_length i /\ N.of_nat (j + 1) * (1 + pad) < 65536).
  { assert (T50 : (top <= 50)%nat) by (unfold top; lia). pose proof pad_val as PV.
    assert (JM : N.of_nat (j + 1) <= max_idx i) by (unfold top in JT; destruct (N.ltb_spec (N.of_nat (count i)) (max_idx i)); lia).
    unfold max_idx in JM. fold pad in JM. pose proof (N.mul_div_le (line_length i) (1 + pad) ltac:(lia)) as D.
    split; [nia|destruct PV as [-> | ->]; lia]. }
  rewrite w16_small by exact (proj2 W). split; [|split; [rewrite lineL_nil; reflexivity|right; rewrite lineL_nil; split; [reflexivity|exact (proj1 W)]]].
  rewrite (map_ext _ (fun _ => (1, pad))) by (intro q; unfold colA, colB; rewrite part_nil; unfold longest; cbn [map fold_right]; f_equal; lia).
  cbn [c_arr]. symmetry. apply map_const.
Qed.
End Inp.
