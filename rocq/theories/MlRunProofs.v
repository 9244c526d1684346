(** Proofs about the match list: whole runs, and the order of sorting. *)
From Verif Require Import Base CmpModel PathModel MlModel MlSpec MlProofs MlPipeProofs.
Local Open Scope N_scope.

Section Run.
Variable walpha : N -> bool.
Variable begins : text -> text -> bool.
Variable wild : text -> text -> bool -> bool -> bool.
Variable compare : bool -> text -> text -> Z.

Lemma sort_shown order s s' : sorts walpha compare order s s' ->
  Permutation (infos s) (infos s') /\ Permutation (shown s) (shown s') /\ in_order (less walpha compare order (nosort s)) (shown s') /\
  nosort s' = nosort s /\ count s' = count s.
Proof.
  intros (l & P & O & ->). unfold shown. cbn [with_infos infos count nosort]. set (k := N.to_nat (count s)) in *.
  assert (L : length l = length (firstn k (infos s))) by (symmetry; apply Permutation_length; exact P).
  assert (F : firstn k (l ++ skipn k (infos s)) = l).
  { rewrite firstn_length in L. destruct (Nat.le_gt_cases k (length (infos s))) as [K|K].
    - rewrite firstn_app. replace (k - length l)%nat with 0%nat by lia. cbn [firstn]. rewrite app_nil_r. apply firstn_all2. lia.
    - rewrite skipn_all2 by lia. rewrite app_nil_r. apply firstn_all2. lia. }
  rewrite F. split; [|split; [exact P|split; [exact O|split; reflexivity]]].
  rewrite <- (firstn_skipn k (infos s)) at 1. apply Permutation_app_tail. exact P.
Qed.
Lemma blind_keep ks : blind (fun e => existsb (same_text (match_ e)) ks).
Proof. intro e. reflexivity. Qed.
Lemma keep_iff ks e : existsb (same_text (match_ e)) ks = true <-> In (text_of (item_of e)) ks.
Proof.
  rewrite existsb_exists. split.
  - intros (x & I & E). apply same_text_iff in E. unfold text_of. cbn [item_of fst]. rewrite E. exact I.
  - intro I. exists (match_ e). split; [exact I|]. apply same_text_iff. reflexivity.
Qed.
Lemma step_ok a s s' w : step walpha begins wild compare a s s' -> refines s w -> exists w', does walpha begins wild a w w' /\ refines s' w'.
Proof.
  destruct w as [all V]. intros ST R. inversion ST; subst; clear ST.
  - pose proof (refines_try s all V (if dot_prefix c || wild_setting c then pattern_pick walpha wild c (needle ++ [42]) else prefix_pick walpha begins c needle)
      (pattern_pick walpha wild c (sub_pattern needle [42])) (can_try c needle)
      (if dot_prefix c || wild_setting c then by_pattern walpha wild c (needle ++ [42]) else by_prefix walpha begins c needle)
      (substring_of walpha wild c needle [42]) (second_try c needle) false R) as X.
    destruct X as (V' & T & R').
    + destruct (dot_prefix c || wild_setting c); intro e; reflexivity.
    + intro e. reflexivity.
    + intro e. destruct (dot_prefix c || wild_setting c); [apply (pattern_iff walpha begins wild)|apply (prefix_iff walpha begins wild)].
    + intro e. apply (substring_iff walpha begins wild).
    + apply can_try_iff.
    + exists (all, V'). split; [apply D_select; exact T|]. cbv iota in R'. exact R'.
  - pose proof (refines_try s all V (pattern_pick walpha wild c pattern) (pattern_pick walpha wild c (sub_pattern pattern [])) (can_try c pattern)
      (by_pattern walpha wild c pattern) (substring_of walpha wild c pattern []) (second_try c pattern) true R) as X.
    destruct X as (V' & T & R').
    + intro e. reflexivity.
    + intro e. reflexivity.
    + intro e. apply (pattern_iff walpha begins wild).
    + intro e. apply (substring_iff walpha begins wild).
    + apply can_try_iff.
    + exists (V', V'). split; [apply D_restrict; exact T|]. cbv iota in R'. exact R'.
  - destruct (show_ok s all V (fun e => existsb (same_text (match_ e)) ks)
                (length (filter select (mark (fun e => existsb (same_text (match_ e)) ks) (infos s)))) true R (blind_keep ks) (le_n _)) as (F & E & _ & _ & R').
    cbv iota in R'. exists (map item_of (filter (fun e => existsb (same_text (match_ e)) ks) F), map item_of (filter (fun e => existsb (same_text (match_ e)) ks) F)).
    split; [|exact R']. apply D_keep. rewrite <- E. apply chosen_filter. apply keep_iff.
  - apply sort_shown in H as (P1 & P2 & _). destruct R as (F & G & E1 & E2 & SF & SB & PF & PG & L).
    exists (all, V). split; [apply D_sort|]. exists F, G. split; [exact E1|]. split; [exact E2|]. split; [exact SF|]. split; [exact SB|].
    split; [|split].
    + rewrite <- PF. apply Permutation_map. symmetry. exact P1.
    + rewrite <- PG. apply Permutation_map. symmetry. exact P2.
    + rewrite <- (Permutation_length P1). exact L.
Qed.
Lemma steps_ok l s s' w : steps walpha begins wild compare l s s' -> refines s w -> exists w', does_all walpha begins wild l w w' /\ refines s' w'.
Proof.
  intro H. revert w. induction H as [s|a l s s' s'' ST H IH]; intros w R; [exists w; split; [apply A_nil|exact R]|].
  destruct (step_ok a s s' w ST R) as (w' & D & R'). destruct (IH w' R') as (w'' & D' & R''). exists w''. split; [eapply A_cons; eassumption|exact R''].
Qed.
Lemma step_nosort a s s' : step walpha begins wild compare a s s' -> nosort s' = nosort s.
Proof.
  intro ST. inversion ST; subst; clear ST; [| | |apply sort_shown in H as (_ & _ & _ & E & _); exact E];
    unfold do_select, do_restrict, do_keep, coalesce; match goal with |- context [gather ?a ?b ?c ?d ?e ?f ?g] => destruct (gather a b c d e f g) as [[[? ?] ?] ?] end; reflexivity.
Qed.
Lemma steps_nosort l s s' : steps walpha begins wild compare l s s' -> nosort s' = nosort s.
Proof. induction 1 as [|a l s s' s'' ST H IH]; [reflexivity|]. rewrite IH. eapply step_nosort. exact ST. Qed.

(** Nothing is shown that is not there, and [count] is what is shown, once something was selected. *)
Definition counted (s : state) : Prop := count s = N.of_nat (length (shown s)).
Lemma get_counted s : counted s -> forall i, get_match s i = Some (nth_error (shown s) (N.to_nat i)).
Proof.
  intros C i. unfold get_match, shown in *. unfold counted, shown in C. rewrite firstn_length in C.
  destruct (N.ltb_spec i (count s)) as [L|L].
  - destruct (nth_error (infos s) (N.to_nat i)) eqn:E.
    + f_equal. symmetry. rewrite <- E. assert (K : (N.to_nat i < N.to_nat (count s))%nat) by lia. revert K. generalize (N.to_nat i) (N.to_nat (count s)) (infos s). clear.
      intros i k l. revert k l. induction i as [|i IH]; intros [|k] l K; try lia; destruct l as [|x l]; try reflexivity. cbn [firstn nth_error]. apply IH. lia.
    + apply nth_error_None in E. lia.
  - f_equal. symmetry. apply nth_error_None. rewrite firstn_length. lia.
Qed.
Lemma coalesce_counted s hint restrict : N.of_nat (length (infos s)) < 65536 -> (length (filter select (infos s)) <= hint)%nat -> counted (coalesce s hint restrict).
Proof.
  intros L H. destruct (coalesce_ok s hint restrict H) as (rest & I & _ & C & _). unfold counted, shown. rewrite C, I. unfold short.
  pose proof (filter_length_le' select (infos s)) as FL. rewrite N.mod_small by lia. rewrite Nat2N.id, firstn_app, Nat.sub_diag, firstn_all. cbn [firstn]. rewrite app_nil_r. reflexivity.
Qed.
Lemma selected_length p q b l : length (selected p q b l) = length l.
Proof. unfold selected. cbv zeta. destruct (negb (existsb select (mark p l)) && b); unfold mark; rewrite !map_length; reflexivity. Qed.
Lemma step_counted a s s' w : step walpha begins wild compare a s s' -> refines s w -> counted s \/ (forall o, a <> Sort o) -> counted s'.
Proof.
  intros ST R C. assert (L : N.of_nat (length (infos s)) < 65536) by (destruct R as (F & G & R); tauto).
  inversion ST; subst; clear ST.
  - unfold do_select. apply coalesce_counted; cbn [with_infos infos]; unfold select_matches; [rewrite selected_length; exact L|].
    etransitivity; [apply filter_length_le'|]. rewrite selected_length. apply le_n.
  - unfold do_restrict. apply coalesce_counted; cbn [with_infos infos]; [rewrite selected_length; exact L|].
    etransitivity; [apply filter_length_le'|]. rewrite selected_length. apply le_n.
  - unfold do_keep. cbv zeta. apply coalesce_counted; cbn [with_infos infos]; [unfold mark; rewrite map_length; exact L|lia].
  - destruct C as [C|C]; [|exfalso; exact (C order eq_refl)]. apply sort_shown in H as (_ & P & _ & _ & E). unfold counted in *. rewrite E, C. f_equal. apply Permutation_length. exact P.
Qed.

(** "No sort" gives the order of coming. *)
Lemma ordinal_strip e : ordinal (strip e) = ordinal e. Proof. reflexivity. Qed.
Lemma before_nodup G : StronglySorted before G -> NoDup (map ordinal G).
Proof.
  induction 1 as [|x G S IH F]; cbn [map]; constructor; [|exact IH]. intro I. apply in_map_iff in I as (y & E & I).
  pose proof (proj1 (Forall_forall _ _) F y I) as B. unfold before in B. lia.
Qed.
Lemma weak_strict l : in_order (less walpha compare 0 true) l -> NoDup (map ordinal l) -> StronglySorted before (map strip l).
Proof.
  unfold in_order. induction 1 as [|x l S IH F]; cbn [map]; intro ND; [constructor|]. inversion ND as [|a b N1 N2]; subst. constructor; [apply IH; exact N2|].
  apply Forall_forall. intros y I. apply in_map_iff in I as (z & <- & I). pose proof (proj1 (Forall_forall _ _) F z I) as B. cbn [less] in B. unfold before. rewrite !ordinal_strip.
  apply N.ltb_ge in B. assert (ordinal x <> ordinal z); [|lia]. intro E. apply N1. rewrite E. apply in_map. exact I.
Qed.
Lemma nosort_order s w order s' : refines s w -> nosort s = true -> sorts walpha compare order s s' -> map item_of (shown s') = snd w.
Proof.
  intros R NS ST. apply sort_shown in ST as (_ & P & O & _). rewrite NS in O. destruct R as (F & G & _ & E2 & SF & SB & _ & PG & _).
  assert (SG : StronglySorted before G) by (eapply sub_sorted; eassumption).
  assert (PG' : Permutation (map strip (shown s')) G) by (rewrite <- PG; apply Permutation_map; symmetry; exact P).
  assert (E : map strip (shown s') = G).
  { apply sorted_unique; [|exact SG|exact PG']. apply weak_strict; [exact O|].
    apply (Permutation_NoDup (l := map ordinal G)); [|apply before_nodup; exact SG]. rewrite <- PG'. rewrite map_map. apply Permutation_refl. }
  rewrite <- E2, <- E, map_map. reflexivity.
Qed.
End Run.

(** ** The order *)
Section Order.
Variable A : Type.
(** A comparison that is one *)
Definition preorder (k : A -> A -> Z) : Prop :=
  (forall x y, (k x y < 0 <-> k y x > 0)%Z) /\ (forall x y z, (k x y <= 0 -> k y z <= 0 -> k x z <= 0)%Z).
Lemma pre_zero k : preorder k -> forall x y, (k x y = 0 <-> k y x = 0)%Z.
Proof. intros [S T] x y. pose proof (S x y). pose proof (S y x). lia. Qed.
Lemma pre_refl k : preorder k -> forall x, (k x x = 0)%Z.
Proof. intros [S T] x. pose proof (S x x). lia. Qed.
Definition by_keys (ks : list (A -> A -> Z)) (x y : A) : bool := decide (map (fun k => k x y) ks).
Lemma keys_asym ks : Forall preorder ks -> forall x y, by_keys ks x y = true -> by_keys ks y x = false.
Proof.
  unfold by_keys. induction 1 as [|k ks K F IH]; intros x y; cbn [map decide]; [reflexivity|].
  pose proof (pre_zero k K x y) as Z0. destruct K as [S T]. pose proof (S x y).
  destruct (Z.eqb_spec (k x y) 0), (Z.eqb_spec (k y x) 0); try lia. apply IH.
Qed.
Lemma keys_neg ks : Forall preorder ks -> forall x y z, by_keys ks y x = false -> by_keys ks z y = false -> by_keys ks z x = false.
Proof.
  unfold by_keys. induction 1 as [|k ks K F IH]; intros x y z; cbn [map decide]; [reflexivity|].
  destruct K as [S T]. pose proof (S x y). pose proof (S y z). pose proof (S x z). pose proof (S y x). pose proof (S z y). pose proof (S z x).
  pose proof (T x y z). pose proof (T z y x). pose proof (T y x z). pose proof (T x z y). pose proof (T z x y). pose proof (T y z x).
  destruct (Z.eqb_spec (k y x) 0), (Z.eqb_spec (k z y) 0), (Z.eqb_spec (k z x) 0); try lia; try (apply IH);
    destruct (Z.ltb_spec (k y x) 0); destruct (Z.ltb_spec (k z y) 0); destruct (Z.ltb_spec (k z x) 0); try lia; try discriminate; try reflexivity.
Qed.
(** A sorted arrangement exists. *)
Variable lt : A -> A -> bool.
Hypothesis asym : forall x y, lt x y = true -> lt y x = false.
Hypothesis neg : forall x y z, lt y x = false -> lt z y = false -> lt z x = false.
Fixpoint insert (x : A) (l : list A) : list A := match l with [] => [x] | y :: r => if lt y x then y :: insert x r else x :: l end.
Lemma insert_perm x l : Permutation (x :: l) (insert x l).
Proof. induction l as [|y r IH]; cbn [insert]; [apply Permutation_refl|]. destruct (lt y x); [|apply Permutation_refl]. etransitivity; [apply perm_swap|]. constructor. exact IH. Qed.
Lemma insert_sorted x l : StronglySorted (fun a b => lt b a = false) l -> StronglySorted (fun a b => lt b a = false) (insert x l).
Proof.
  induction 1 as [|y r S IH F]; cbn [insert]; [constructor; constructor|]. destruct (lt y x) eqn:E.
  - constructor; [exact IH|]. apply Forall_forall. intros z I. eapply Permutation_in in I; [|symmetry; apply insert_perm]. destruct I as [<-|I]; [apply asym; exact E|].
    exact (proj1 (Forall_forall _ _) F z I).
  - constructor; [constructor; assumption|]. constructor; [exact E|]. apply Forall_forall. intros z I. pose proof (proj1 (Forall_forall _ _) F z I) as B. cbn beta in B. eapply neg; eassumption.
Qed.
Lemma sorted_exists l : exists l', Permutation l l' /\ StronglySorted (fun a b => lt b a = false) l'.
Proof.
  induction l as [|x l (l' & P & S)]; [exists []; split; constructor|]. exists (insert x l'). split; [rewrite <- insert_perm; constructor; exact P|apply insert_sorted; exact S].
Qed.
End Order.
