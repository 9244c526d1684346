From Verif Require Import Base BindModel BindSpec.
From Coq Require Import Sorting.Sorted.
Open Scope nat_scope.

(** * Ghost information of the nodes: parent, group and path; none for group slots *)
Definition info : Type := option (nat * nat * list N).
Definition nonempty (q : list N) : bool := match q with [] => false | _ => true end.
Definition holds (f : nat -> nat -> list N -> bool) (x : info) : bool := match x with Some (p, g, q) => f p g q | None => false end.
Definition at_ (gs : list info) (i : nat) : info := nth i gs None.
Definition idx (gs : list info) (f : nat -> nat -> list N -> bool) : list nat := filter (fun i => holds f (at_ gs i)) (seq 0 (length gs)).
Definition ids (gs : list info) (g : nat) (q : list N) : list nat := idx gs (fun _ g' q' => (g' =? g) && keys_eq q' q).
Definition kids (gs : list info) (p : nat) : list nat := idx gs (fun p' _ q' => (p' =? p) && nonempty q').
Definition look (gs : list info) (g : nat) (q : list N) : nat := hd 0 (ids gs g q).
Definition after (gs : list info) (p i : nat) : nat := hd p (filter (fun j => i <? j) (kids gs p)).

Lemma keys_eq_iff a b : keys_eq a b = true <-> a = b.
Proof. unfold keys_eq. destruct (list_eq_dec N.eq_dec a b); split; intros; congruence. Qed.
Lemma keys_eq_refl a : keys_eq a a = true.
Proof. now apply keys_eq_iff. Qed.

Lemma at_old gs x i : i < length gs -> at_ (gs ++ [x]) i = at_ gs i.
Proof. intros H. unfold at_. now rewrite app_nth1. Qed.
Lemma at_new gs x : at_ (gs ++ [x]) (length gs) = x.
Proof. unfold at_. rewrite app_nth2 by lia. now rewrite Nat.sub_diag. Qed.
Lemma at_some gs i y : at_ gs i = Some y -> i < length gs.
Proof. intros H. destruct (Nat.lt_ge_cases i (length gs)) as [L|L]; [exact L|]. unfold at_ in H. rewrite nth_overflow in H by lia. discriminate. Qed.

Lemma idx_snoc gs x f : idx (gs ++ [x]) f = idx gs f ++ (if holds f x then [length gs] else []).
Proof.
  unfold idx. rewrite app_length. cbn [length]. rewrite Nat.add_1_r, seq_S, filter_app. cbn [filter Nat.add]. rewrite at_new. f_equal.
  apply filter_ext_in. intros i H%in_seq. rewrite at_old by lia. reflexivity.
Qed.
Lemma idx_in gs f i : In i (idx gs f) <-> holds f (at_ gs i) = true.
Proof.
  unfold idx. rewrite filter_In, in_seq. split; [intros [_ H]; exact H|]. intros H. split; [|exact H].
  destruct (at_ gs i) as [y|] eqn:E; [|discriminate]. apply at_some in E. lia.
Qed.
Lemma sorted_filter f l : StronglySorted lt l -> StronglySorted lt (filter f l).
Proof.
  induction 1 as [|a l H IH F]; [constructor|]. cbn [filter]. destruct (f a); [|exact IH]. constructor; [exact IH|].
  rewrite Forall_forall in *. intros x X%filter_In. apply F, X.
Qed.
Lemma sorted_seq n : forall s, StronglySorted lt (seq s n).
Proof. induction n as [|n IH]; intros s; cbn [seq]; constructor; [apply IH|]. apply Forall_forall. intros x X%in_seq. lia. Qed.
Lemma idx_sorted gs f : StronglySorted lt (idx gs f).
Proof. apply sorted_filter, sorted_seq. Qed.
Lemma filter_le {A} (f : A -> bool) l : length (filter f l) <= length l.
Proof. induction l as [|a l IH]; cbn [filter length]; [lia|]. destruct (f a); cbn [length]; lia. Qed.
Lemma filter_all {A} (f : A -> bool) l : Forall (fun x => f x = true) l -> filter f l = l.
Proof. induction 1 as [|a l H F IH]; [reflexivity|]. cbn [filter]. now rewrite H, IH. Qed.
Lemma filter_filter_and {A} (f h : A -> bool) l : filter f (filter h l) = filter (fun x => h x && f x) l.
Proof. induction l as [|a l IH]; [reflexivity|]. cbn [filter]. destruct (h a); cbn [filter andb]; [destruct (f a)|]; now rewrite IH. Qed.
Lemma idx_length gs f : length (idx gs f) <= length gs.
Proof. unfold idx. rewrite <- (seq_length (length gs) 0) at 2. apply filter_le. Qed.

Lemma ids_in gs g q i : In i (ids gs g q) <-> exists p, at_ gs i = Some (p, g, q).
Proof.
  unfold ids. rewrite idx_in. destruct (at_ gs i) as [[[p g'] q']|]; cbn [holds].
  - rewrite andb_true_iff, Nat.eqb_eq, keys_eq_iff. split; [intros [-> ->]; eauto|intros [p' H]; injection H as -> -> ->; auto].
  - split; [discriminate|intros [p H]; discriminate].
Qed.
Lemma kids_in gs p i : In i (kids gs p) <-> exists g q, at_ gs i = Some (p, g, q) /\ q <> [].
Proof.
  unfold kids. rewrite idx_in. destruct (at_ gs i) as [[[p' g'] q']|]; cbn [holds].
  - rewrite andb_true_iff, Nat.eqb_eq. split.
    + intros [-> H]. exists g', q'. split; [reflexivity|]. now destruct q'.
    + intros (g & q & H & Hq). injection H as -> -> ->. split; [reflexivity|]. now destruct q.
  - split; [discriminate|intros (g & q & H & _); discriminate].
Qed.
Lemma look_in gs g q : look gs g q <> 0 -> exists p, at_ gs (look gs g q) = Some (p, g, q).
Proof.
  unfold look. intros H. apply ids_in. destruct (ids gs g q) as [|a l]; [now elim H|]. now left.
Qed.
Lemma look_none gs g q : at_ gs 0 = None -> look gs g q = 0 -> ids gs g q = [].
Proof.
  unfold look. intros Z H. destruct (ids gs g q) as [|a l] eqn:E; [reflexivity|]. cbn [hd] in H. subst a.
  assert (I : In 0 (ids gs g q)) by (rewrite E; now left). apply ids_in in I as [p I]. congruence.
Qed.
Lemma look_some gs g q i : at_ gs 0 = None -> In i (ids gs g q) -> look gs g q <> 0 /\ look gs g q <= i.
Proof.
  intros Z I. split.
  - intros E. apply look_none in E; [|exact Z]. now rewrite E in I.
  - unfold look. pose proof (idx_sorted gs (fun _ g' q' => (g' =? g) && keys_eq q' q)) as S. fold (ids gs g q) in S.
    destruct (ids gs g q) as [|a l]; [contradiction|]. cbn [hd]. destruct I as [->|I]; [lia|].
    apply StronglySorted_inv in S as [_ F]. rewrite Forall_forall in F. specialize (F _ I). lia.
Qed.

Lemma after_split gs p pre i l : kids gs p = pre ++ i :: l -> after gs p i = hd p l.
Proof.
  intros E. unfold after. rewrite E. pose proof (idx_sorted gs (fun p' _ q' => (p' =? p) && nonempty q')) as S. fold (kids gs p) in S. rewrite E in S.
  rewrite filter_app. cbn [filter]. rewrite Nat.ltb_irrefl. clear E.
  assert (P : filter (fun j => i <? j) pre = []).
  { induction pre as [|a pre IH]; [reflexivity|]. cbn [app] in S. apply StronglySorted_inv in S as [S F]. cbn [filter].
    rewrite Forall_forall in F. assert (a < i) by (apply F, in_or_app; right; now left). replace (i <? a) with false by lia. now apply IH. }
  rewrite P. cbn [app]. clear P. assert (S' : StronglySorted lt (i :: l)).
  { induction pre as [|a pre IH]; [exact S|]. apply IH. cbn [app] in S. now apply StronglySorted_inv in S. }
  apply StronglySorted_inv in S' as [_ F]. f_equal. rewrite filter_all; [reflexivity|].
  revert F. apply Forall_impl. intros a H. lia.
Qed.

(** * The invariant *)
Record node_ok (nd : nat -> option node) (gs : list info) (mods : nat) (i p g : nat) (q : list N) (n : node) : Prop := {
  ok_params : n_params n = false;
  ok_bound : n_bound n = true -> n_depth n = length q mod 16 /\ n_module n < mods;
  ok_root : q = [] -> p = 0 /\ g = i /\ n_key n = 0%N /\ n_next n = 0;
  ok_key : forall q' k, q = q' ++ [k] -> k <> 0%N /\ n_key n = k /\ p < i /\ p <> 0 /\ p = look gs g q' /\ n_next n = after gs p i;
  ok_child : n_child n = if i =? look gs g q then hd 0 (kids gs i) else 0;
  ok_dup : i <> look gs g q -> n_bound n = true /\ exists m, nd (look gs g q) = Some m /\ n_bound m = true }.
Record Inv (nd : nat -> option node) (gs : list info) (mods : nat) : Prop := {
  inv_zero : at_ gs 0 = None;
  inv_node : forall i p g q, at_ gs i = Some (p, g, q) -> exists n, nd i = Some n /\ node_ok nd gs mods i p g q n }.

Lemma kid_info nd gs mods i p : Inv nd gs mods -> In i (kids gs p) -> exists g q k n, at_ gs i = Some (p, g, q ++ [k]) /\ nd i = Some n /\ node_ok nd gs mods i p g (q ++ [k]) n.
Proof.
  intros I H. apply kids_in in H as (g & q & A & Hq). destruct (exists_last Hq) as (q' & k & ->).
  destruct (inv_node _ _ _ I _ _ _ _ A) as (n & Hn & K). now exists g, q', k, n.
Qed.
Lemma kid_gt nd gs mods i p : Inv nd gs mods -> In i (kids gs p) -> p < i /\ p <> 0.
Proof. intros I H. destruct (kid_info _ _ _ _ _ I H) as (g & q & k & n & A & Hn & K). pose proof (ok_key _ _ _ _ _ _ _ _ K q k eq_refl). lia. Qed.
(** the group and path of a main node *)
Lemma look_path nd gs mods p g q g' q' r : Inv nd gs mods -> p = look gs g q -> p <> 0 -> at_ gs p = Some (r, g', q') -> g' = g /\ q' = q.
Proof. intros I -> H A. destruct (look_in _ _ _ H) as [r' B]. rewrite B in A. injection A as _ -> ->. auto. Qed.

(** the kids of a main node with a given key are the nodes of the longer path *)
Definition has_key (gs : list info) (k : N) (i : nat) : bool := match at_ gs i with Some (_, _, q) => (last q 0 =? k)%N | None => false end.
Lemma kids_ids nd gs mods g q k : Inv nd gs mods -> look gs g q <> 0 -> filter (has_key gs k) (kids gs (look gs g q)) = ids gs g (q ++ [k]).
Proof.
  intros I L. unfold kids, ids, idx. rewrite filter_filter_and. apply filter_ext_in. intros i _. unfold has_key.
  destruct (at_ gs i) as [[[p g'] q']|] eqn:A; cbn [holds]; [|reflexivity].
  destruct (inv_node _ _ _ I _ _ _ _ A) as (n & Hn & O). apply eq_true_iff_eq. rewrite !andb_true_iff, !Nat.eqb_eq, keys_eq_iff, N.eqb_eq. split.
  - intros [[-> Hq] E]. assert (Q : q' <> []) by (now destruct q'). destruct (exists_last Q) as (q'' & k' & ->). rewrite last_last in E. subst k'.
    destruct (ok_key _ _ _ _ _ _ _ _ O q'' k eq_refl) as (_ & _ & _ & _ & P & _).
    destruct (look_in _ _ _ L) as [r B]. destruct (look_path _ _ _ _ _ _ _ _ _ I P L B) as [-> ->]. auto.
  - intros [-> ->]. destruct (ok_key _ _ _ _ _ _ _ _ O q k eq_refl) as (_ & _ & _ & _ & P & _). rewrite last_last. split; [split; [exact P|now destruct q]|reflexivity].
Qed.

Section Binder.
Variables (b : binder) (gs : list info).
Hypothesis I : Inv (get b) gs (length (b_modules b)).
Hypothesis L : length gs <= slots.

Lemma find_loop_ok p k : forall l pre fuel, kids gs p = pre ++ l -> length l <= fuel ->
  find_child_loop fuel b p k (hd p l) = Some (hd 0 (filter (has_key gs k) l)).
Proof.
  induction l as [|i l IH]; intros pre fuel E F.
  - cbn [hd filter]. destruct fuel; cbn [find_child_loop]; now rewrite Nat.ltb_irrefl.
  - assert (Hi : In i (kids gs p)) by (rewrite E; apply in_or_app; right; now left).
    destruct (kid_gt _ _ _ _ _ I Hi) as [G _]. destruct (kid_info _ _ _ _ _ I Hi) as (g & q & k' & n & A & Hn & O).
    destruct (ok_key _ _ _ _ _ _ _ _ O q k' eq_refl) as (_ & KK & _ & _ & _ & NX).
    destruct fuel as [|fuel]; [cbn [length] in F; lia|]. cbn [length] in F. cbn [hd find_child_loop].
    replace (p <? i) with true by lia. rewrite Hn, (ok_params _ _ _ _ _ _ _ _ O), KK. cbn [andb]. rewrite orb_false_r.
    cbn [filter]. unfold has_key at 1. rewrite A, last_last. destruct (N.eqb_spec k' k) as [->|]; [reflexivity|].
    rewrite NX, (after_split _ _ _ _ _ E). apply (IH (pre ++ [i])); [now rewrite <- app_assoc|lia].
Qed.
Lemma find_child_ok g q k : look gs g q <> 0 -> find_child b (look gs g q) k = Some (look gs g (q ++ [k])).
Proof.
  intros H. destruct (look_in _ _ _ H) as [r A]. destruct (inv_node _ _ _ I _ _ _ _ A) as (n & Hn & O).
  unfold find_child. rewrite Hn, (ok_params _ _ _ _ _ _ _ _ O). cbn [andb]. rewrite (ok_child _ _ _ _ _ _ _ _ O), Nat.eqb_refl.
  set (p := look gs g q) in *.
  assert (E : find_child_loop slots b p k (hd 0 (kids gs p)) = find_child_loop slots b p k (hd p (kids gs p))).
  { destruct (kids gs p); [|reflexivity]. cbn [hd]. unfold slots. cbn [find_child_loop]. replace (p <? 0) with false by lia. now rewrite Nat.ltb_irrefl. }
  rewrite E, (find_loop_ok p k (kids gs p) []); [|reflexivity|pose proof (idx_length gs (fun p' _ q' => (p' =? p) && nonempty q')) as Q; fold (kids gs p) in Q; lia].
  f_equal. unfold look at 1. now rewrite <- (kids_ids _ _ _ _ _ _ I H).
Qed.
Lemma find_tail_ok p : forall l i pre fuel, kids gs p = pre ++ i :: l -> length l <= fuel -> find_tail fuel b i = Some (last (i :: l) 0).
Proof.
  induction l as [|j l IH]; intros i pre fuel E F;
    (assert (Hi : In i (kids gs p)) by (rewrite E; apply in_or_app; right; now left);
     destruct (kid_gt _ _ _ _ _ I Hi) as [G _]; destruct (kid_info _ _ _ _ _ I Hi) as (g & q & k' & n & A & Hn & O);
     destruct (ok_key _ _ _ _ _ _ _ _ O q k' eq_refl) as (_ & KK & _ & _ & _ & NX); rewrite (after_split _ _ _ _ _ E) in NX; cbn [hd] in NX).
  - destruct fuel; cbn [find_tail]; rewrite Hn, NX; replace (i <? p) with false by lia; reflexivity.
  - cbn [length] in F. destruct fuel as [|fuel]; [lia|]. cbn [find_tail]. rewrite Hn, NX.
    assert (J : i < j).
    { pose proof (idx_sorted gs (fun p' _ q' => (p' =? p) && nonempty q')) as S. fold (kids gs p) in S. rewrite E in S. clear - S.
      induction pre as [|a pre IH]; cbn [app] in S; apply StronglySorted_inv in S as [S F]; [|now apply IH]. now apply Forall_inv in F. }
    replace (i <? j) with true by lia. rewrite (IH j (pre ++ [i])); [reflexivity|now rewrite <- app_assoc|lia].
Qed.
End Binder.

(** * Changes *)
Lemma ids_snoc gs x g q : ids (gs ++ [x]) g q = ids gs g q ++ (if holds (fun _ g' q' => (g' =? g) && keys_eq q' q) x then [length gs] else []).
Proof. apply idx_snoc. Qed.
Lemma kids_snoc gs x p : kids (gs ++ [x]) p = kids gs p ++ (if holds (fun p' _ q' => (p' =? p) && nonempty q') x then [length gs] else []).
Proof. apply idx_snoc. Qed.
Lemma look_keep gs x g q : at_ gs 0 = None -> look gs g q <> 0 -> look (gs ++ [x]) g q = look gs g q.
Proof. intros Z H. unfold look in *. rewrite ids_snoc. destruct (ids gs g q); [now elim H|reflexivity]. Qed.
Lemma inv_length nd gs mods : Inv nd gs mods -> forall g q, look gs g q <> 0 -> 0 < length gs.
Proof. intros I g q H. destruct (look_in _ _ _ H) as [p A]. apply at_some in A. lia. Qed.

Lemma inv_add nd nd' gs mods p g q k new (c := last (kids gs p) p) (n := length gs) :
  Inv nd gs mods -> p = look gs g q -> p <> 0 -> k <> 0%N ->
  nd' n = Some new ->
  (forall i, i < n -> i <> c -> nd' i = nd i) ->
  (forall C, nd c = Some C -> nd' c = Some (if c =? p then with_child C n else with_next C n)) ->
  n_params new = false -> n_key new = k -> n_next new = p -> n_child new = 0 ->
  (n_bound new = true -> n_depth new = length (q ++ [k]) mod 16 /\ n_module new < mods) ->
  (look gs g (q ++ [k]) <> 0 -> n_bound new = true /\ exists m, nd (look gs g (q ++ [k])) = Some m /\ n_bound m = true) ->
  Inv nd' (gs ++ [Some (p, g, q ++ [k])]) mods.
Proof.
  intros I P P0 K Hnew Hold Hc A1 A2 A3 A4 A5 A6.
  set (gs' := gs ++ [Some (p, g, q ++ [k])]).
  assert (Z : at_ gs 0 = None) by apply I.
  assert (Ln : 0 < n) by (apply (inv_length _ _ _ I g q); rewrite <- P; exact P0).
  destruct (look_in gs g q) as [r0 AP]; [now rewrite <- P|]. rewrite <- P in AP.
  assert (Cn : c < n).
  { unfold c. destruct (kids gs p) as [|a l] eqn:E; [now apply at_some in AP|].
    assert (In (last (a :: l) p) (kids gs p)) as Q by (rewrite E; destruct (@exists_last _ (a :: l)) as (x & y & ->); [discriminate|]; rewrite last_last; apply in_or_app; right; now left).
    apply kids_in in Q as (? & ? & Q & _). now apply at_some in Q. }
  assert (KI : kids gs p <> [] -> In c (kids gs p) /\ p < c).
  { intros H. assert (In c (kids gs p)) as Q.
    { unfold c. destruct (exists_last H) as (x & y & E). rewrite E, last_last. apply in_or_app; right; now left. }
    split; [exact Q|]. apply (kid_gt _ _ _ _ _ I Q). }
  (* the nodes after the change *)
  assert (ND : forall i m, i < n -> nd i = Some m -> exists m', nd' i = Some m' /\ n_params m' = n_params m /\ n_bound m' = n_bound m /\ n_depth m' = n_depth m /\ n_module m' = n_module m /\ n_key m' = n_key m /\
     n_next m' = (if (i =? c) && negb (c =? p) then n else n_next m) /\ n_child m' = (if (i =? c) && (c =? p) then n else n_child m)).
  { intros i m Hi Hm. destruct (Nat.eqb_spec i c) as [->|Hic].
    - eexists. split; [exact (Hc _ Hm)|]. destruct (c =? p); cbn; repeat (split; [reflexivity|]); reflexivity.
    - exists m. rewrite Hold by assumption. cbn [andb]. repeat (split; [first [exact Hm|reflexivity]|]). reflexivity. }
  assert (KK : forall i, kids gs' i = kids gs i ++ if i =? p then [n] else []).
  { intros i. unfold gs'. rewrite kids_snoc. cbn [holds]. rewrite (Nat.eqb_sym p i). replace (nonempty (q ++ [k])) with true by (now destruct q). rewrite andb_true_r. reflexivity. }
  assert (LN : look gs' g (q ++ [k]) = if look gs g (q ++ [k]) =? 0 then n else look gs g (q ++ [k])).
  { destruct (Nat.eqb_spec (look gs g (q ++ [k])) 0) as [E|E]; [|now apply look_keep].
    unfold look, gs'. rewrite ids_snoc. cbn [holds]. rewrite (look_none _ _ _ Z E), Nat.eqb_refl, keys_eq_refl. reflexivity. }
  constructor; [unfold gs'; now rewrite at_old|].
  intros i p0 g0 q0 A. unfold gs' in A. assert (Hi : i < length (gs ++ [Some (p, g, q ++ [k])])) by (now apply at_some in A). rewrite app_length in Hi. cbn [length] in Hi. fold n in Hi.
  destruct (Nat.eq_dec i n) as [->|Hin].
  - unfold n in A. rewrite at_new in A. injection A as <- <- <-. exists new. split; [exact Hnew|]. constructor; [exact A1|exact A5| | | |].
    + intros E. now destruct q.
    + intros q' k' E. apply app_inj_tail in E as [<- <-]. split; [exact K|]. split; [exact A2|]. split; [now apply at_some in AP|]. split; [exact P0|].
      split; [unfold gs'; rewrite look_keep by (first [exact Z|congruence]); exact P|].
      rewrite A3. symmetry. apply (after_split gs' p (kids gs p) n []). now rewrite KK, Nat.eqb_refl.
    + rewrite A4. destruct (n =? look gs' g (q ++ [k])); [|reflexivity]. rewrite KK. replace (n =? p) with false by (apply at_some in AP; fold n in AP; lia). rewrite app_nil_r.
      destruct (kids gs n) as [|a l] eqn:E; [reflexivity|]. assert (Q : In a (kids gs n)) by (rewrite E; now left). pose proof (kid_gt _ _ _ _ _ I Q).
      apply kids_in in Q as (? & ? & Q & _). apply at_some in Q. fold n in Q. lia.
    + rewrite LN. destruct (Nat.eqb_spec (look gs g (q ++ [k])) 0) as [E|E]; [now intros []|]. intros _. destruct (A6 E) as (B1 & m & B2 & B3).
      split; [exact B1|]. destruct (look_in _ _ _ E) as [? AL]. apply at_some in AL. destruct (ND _ _ AL B2) as (m' & D1 & _ & D2 & _). exists m'. split; [exact D1|congruence].
  - assert (Hi' : i < n) by lia. rewrite at_old in A by exact Hi'. destruct (inv_node _ _ _ I _ _ _ _ A) as (m & Hm & O).
    destruct (ND _ _ Hi' Hm) as (m' & D0 & D1 & D2 & D3 & D4 & D5 & D6 & D7). exists m'. split; [exact D0|].
    assert (LI : look gs g0 q0 <> 0 /\ look gs g0 q0 <= i) by (apply look_some; [exact Z|apply ids_in; eauto]).
    constructor.
    + rewrite D1. apply O.
    + rewrite D2, D3, D4. apply O.
    + intros E. destruct (ok_root _ _ _ _ _ _ _ _ O E) as (R1 & R2 & R3 & R4). rewrite D5, D6, R4. split; [exact R1|]. split; [exact R2|]. split; [exact R3|].
      destruct (Nat.eqb_spec i c) as [E'|]; [|reflexivity]. destruct (Nat.eqb_spec c p) as [|Hcp]; [reflexivity|]. exfalso.
      assert (kids gs p <> []) as Q by (intros Q; unfold c in Hcp; now rewrite Q in Hcp). destruct (KI Q) as [Q' _]. rewrite <- E' in Q'. apply kids_in in Q' as (? & ? & Q' & X). congruence.
    + intros q' k' E. destruct (ok_key _ _ _ _ _ _ _ _ O q' k' E) as (R1 & R2 & R3 & R4 & R5 & R6). rewrite D5, D6, R6.
      split; [exact R1|]. split; [exact R2|]. split; [exact R3|]. split; [exact R4|].
      split; [unfold gs'; rewrite look_keep by (first [exact Z|congruence]); exact R5|].
      unfold after. rewrite KK.
      assert (Hik : In i (kids gs p0)) by (apply kids_in; exists g0, q0; split; [exact A|rewrite E; now destruct q']).
      destruct (Nat.eqb_spec p0 p) as [->|Hp].
      * rewrite filter_app. cbn [filter]. replace (i <? n) with true by lia.
        assert (Q : kids gs p <> []) by (intros Q; now rewrite Q in Hik). destruct (KI Q) as [Q' Q'']. replace (c =? p) with false by lia. cbn [negb]. rewrite andb_true_r.
        destruct (exists_last Q) as (x & y & E'). assert (Ec : c = y) by (unfold c; now rewrite E', last_last).
        destruct (Nat.eqb_spec i c) as [Eic|Hic].
        -- assert (F : filter (fun j => i <? j) (kids gs p) = []).
           { destruct (filter (fun j => i <? j) (kids gs p)) as [|a l] eqn:F; [reflexivity|]. assert (X : In a (filter (fun j => i <? j) (kids gs p))) by (rewrite F; now left).
             apply filter_In in X as [X1 X2]. rewrite E' in X1. apply in_app_or in X1 as [X1|[X1|[]]]; [|lia]. exfalso.
             pose proof (idx_sorted gs (fun p' _ q' => (p' =? p) && nonempty q')) as S. fold (kids gs p) in S. rewrite E' in S. clear - S X1 X2 Eic Ec.
             induction x as [|z x IH]; [contradiction|]. cbn [app] in S. apply StronglySorted_inv in S as [S F]. destruct X1 as [->|X1]; [|now apply IH].
             rewrite Forall_forall in F. specialize (F y ltac:(apply in_or_app; right; now left)). lia. }
           rewrite F. reflexivity.
        -- destruct (filter (fun j => i <? j) (kids gs p)) as [|a l] eqn:F; [|reflexivity]. exfalso.
           assert (X : ~ In c (filter (fun j => i <? j) (kids gs p))) by (rewrite F; intros []). apply X. apply filter_In. split; [exact Q'|].
           rewrite E' in Hik. apply in_app_or in Hik as [X1|[X1|[]]]; [|lia].
           pose proof (idx_sorted gs (fun p' _ q' => (p' =? p) && nonempty q')) as S. fold (kids gs p) in S. rewrite E' in S. clear - S X1 Ec.
           induction x as [|z x IH]; [contradiction|]. cbn [app] in S. apply StronglySorted_inv in S as [S F]. destruct X1 as [->|X1]; [|now apply IH].
           rewrite Forall_forall in F. specialize (F y ltac:(apply in_or_app; right; now left)). lia.
      * rewrite app_nil_r. destruct (Nat.eqb_spec i c) as [E'|]; [|reflexivity]. destruct (Nat.eqb_spec c p) as [|Hcp]; [reflexivity|]. exfalso.
        assert (kids gs p <> []) as Q by (intros Q; unfold c in Hcp; now rewrite Q in Hcp). destruct (KI Q) as [Q' _]. rewrite <- E' in Q'. apply kids_in in Q' as (? & ? & Q' & X). congruence.
    + unfold gs'. rewrite look_keep by (first [exact Z|apply LI]). rewrite D7, (ok_child _ _ _ _ _ _ _ _ O). fold gs'. rewrite KK.
      destruct (Nat.eqb_spec i c) as [E'|E']; destruct (Nat.eqb_spec c p) as [E''|E'']; cbn [andb].
      * assert (X : i = look gs g0 q0). { rewrite E', E'' in A. rewrite AP in A. injection A as _ <- <-. congruence. }
        rewrite <- X, Nat.eqb_refl. replace (i =? p) with true by lia. destruct (kids gs i) as [|a l] eqn:E; [reflexivity|].
        exfalso. assert (Q : kids gs p <> []) by (rewrite <- E'', <- E', E; discriminate). destruct (KI Q). lia.
      * replace (i =? p) with false by lia. now rewrite app_nil_r.
      * destruct (Nat.eqb_spec i p) as [->|]; [lia|]. now rewrite app_nil_r.
      * destruct (Nat.eqb_spec i p) as [->|]; [|now rewrite app_nil_r]. destruct (kids gs p) as [|a l] eqn:E; [|reflexivity]. exfalso. apply E''. unfold c. now rewrite ?E.
    + unfold gs'. rewrite look_keep by (first [exact Z|apply LI]). intros X. destruct (ok_dup _ _ _ _ _ _ _ _ O X) as (B1 & m0 & B2 & B3). rewrite D2. split; [exact B1|].
      destruct (ND (look gs g0 q0) m0 ltac:(lia) B2) as (m1 & F1 & _ & F2 & _). exists m1. split; [exact F1|congruence].
Qed.

Lemma inv_bound nd nd' gs mods mods' j p g q n n' :
  Inv nd gs mods -> mods <= mods' -> at_ gs j = Some (p, g, q) -> nd j = Some n -> nd' j = Some n' -> (forall i, i <> j -> nd' i = nd i) ->
  n_next n' = n_next n -> n_params n' = n_params n -> n_child n' = n_child n -> n_key n' = n_key n -> n_bound n' = true -> n_depth n' = length q mod 16 -> n_module n' < mods' ->
  Inv nd' gs mods'.
Proof.
  intros I M A Hn Hn' Ho E1 E2 E3 E4 E5 E6 E7. constructor; [apply I|]. intros i p0 g0 q0 A0. destruct (inv_node _ _ _ I _ _ _ _ A0) as (m & Hm & O).
  assert (X : forall m0, nd (look gs g0 q0) = Some m0 /\ n_bound m0 = true -> exists m1, nd' (look gs g0 q0) = Some m1 /\ n_bound m1 = true).
  { intros m0 [B2 B3]. destruct (Nat.eq_dec (look gs g0 q0) j) as [->|X]; [exists n'|exists m0; rewrite Ho by exact X]; auto. }
  destruct (Nat.eq_dec i j) as [->|Hij].
  - rewrite A in A0. injection A0 as <- <- <-. rewrite Hn in Hm. injection Hm as <-. exists n'. split; [exact Hn'|]. constructor.
    + rewrite E2. apply O.
    + auto.
    + rewrite E4, E1. apply O.
    + rewrite E4, E1. apply O.
    + rewrite E3. apply O.
    + intros Y. split; [exact E5|]. destruct (ok_dup _ _ _ _ _ _ _ _ O Y) as (_ & m0 & B). eauto.
  - exists m. rewrite Ho by exact Hij. split; [exact Hm|]. constructor; [apply O| |apply O|apply O|apply O|].
    + intros B. destruct (ok_bound _ _ _ _ _ _ _ _ O B). lia.
    + intros Y. destruct (ok_dup _ _ _ _ _ _ _ _ O Y) as (B & m0 & B'). split; [exact B|eauto].
Qed.

(** * The binder's operations *)
Definition view (mods : list N) (o : option node) : list (N * N) := match o with Some n => if n_bound n then [(nth (n_module n) mods 0%N, n_id n)] else [] | None => [] end.
Definition obs (b : binder) (gs : list info) (g : nat) (q : list N) : list (N * N) := flat_map (fun i => view (b_modules b) (get b i)) (ids gs g q).
Record St (b : binder) (gs : list info) : Prop := {
  st_len : length gs = length (b_nodes b);
  st_slots : length gs <= slots;
  st_inv : Inv (get b) gs (length (b_modules b));
  st_group : forall i, i < length gs -> at_ gs i = None -> exists x h, nth_error (b_nodes b) i = Some (SGroup x h) }.
(** [gs'] has the nodes of [gs] and possibly more, for beginnings of [all] in group [g] *)
Definition grows (gs gs' : list info) (g : nat) (all : list N) : Prop :=
  (forall g0 q0, look gs g0 q0 <> 0 -> look gs' g0 q0 = look gs g0 q0) /\
  (forall g0 q0, look gs' g0 q0 <> 0 -> look gs g0 q0 <> 0 \/ (g0 = g /\ exists s, all = q0 ++ s)) /\
  (exists l, gs' = gs ++ l).
Lemma grows_refl gs g all : grows gs gs g all.
Proof. split; [auto|split; [auto|]]. exists []. now rewrite app_nil_r. Qed.
Lemma grows_trans a b c g all : grows a b g all -> grows b c g all -> grows a c g all.
Proof.
  intros (A1 & A2 & l1 & ->) (B1 & B2 & l2 & ->). split; [|split].
  - intros g0 q0 H. rewrite B1; rewrite A1; auto.
  - intros g0 q0 H. destruct (B2 _ _ H) as [X|X]; [apply A2, X|now right].
  - exists (l1 ++ l2). now rewrite app_assoc.
Qed.

Lemma set_nth_length {A} (l : list A) i x : length (set_nth l i x) = length l.
Proof. unfold set_nth. rewrite <- (firstn_skipn i l) at 3. rewrite !app_length. destruct (skipn i l); reflexivity. Qed.
Lemma set_nth_get {A} (l : list A) x : forall i j, i < length l -> nth_error (set_nth l i x) j = if j =? i then Some x else nth_error l j.
Proof.
  induction l as [|a l IH]; intros i j H; [cbn [length] in H; lia|]. destruct i as [|i]; destruct j as [|j]; try reflexivity.
  cbn [length] in H. exact (IH i j ltac:(lia)).
Qed.
Lemma get_lt b i n : get b i = Some n -> i < length (b_nodes b).
Proof. unfold get. intros H. apply nth_error_Some. destruct (nth_error (b_nodes b) i); discriminate. Qed.
Lemma get_put b i n j : i < length (b_nodes b) -> get (put b i n) j = if j =? i then Some n else get b j.
Proof. intros H. unfold get, put. cbn [b_nodes]. rewrite set_nth_get by exact H. destruct (j =? i); reflexivity. Qed.
Lemma get_alloc b n j : get (alloc b n) j = if j =? length (b_nodes b) then Some n else get b j.
Proof.
  unfold get, alloc. cbn [b_nodes]. destruct (Nat.eqb_spec j (length (b_nodes b))) as [->|H].
  - rewrite nth_error_app2, Nat.sub_diag by lia. reflexivity.
  - destruct (Nat.lt_ge_cases j (length (b_nodes b))); [now rewrite nth_error_app1|].
    rewrite nth_error_app2 by lia. destruct (j - length (b_nodes b)) as [|d] eqn:E; [lia|]. cbn [nth_error].
    rewrite (proj2 (nth_error_None (b_nodes b) j)) by lia. destruct d; reflexivity.
Qed.
(** a group slot stays one *)
Definition is_gslot (b : binder) (i : nat) : Prop := exists x h, nth_error (b_nodes b) i = Some (SGroup x h).
Lemma gslot_put b i n j : get b i <> None -> is_gslot b j -> is_gslot (put b i n) j.
Proof.
  intros G (x & h & H). exists x, h. unfold put. cbn [b_nodes]. destruct (get b i) as [m|] eqn:E; [|now elim G]. rewrite set_nth_get by (now apply get_lt in E).
  destruct (Nat.eqb_spec j i) as [->|]; [|exact H]. unfold get in E. rewrite H in E. discriminate.
Qed.
Lemma gslot_alloc b n j : is_gslot b j -> is_gslot (alloc b n) j.
Proof. intros (x & h & H). exists x, h. unfold alloc. cbn [b_nodes]. rewrite nth_error_app1; [exact H|]. apply nth_error_Some. now rewrite H. Qed.

Lemma flat_map_ext_in {A B} (f h : A -> list B) l : (forall x, In x l -> f x = h x) -> flat_map f l = flat_map h l.
Proof. intros H. induction l as [|a l IH]; [reflexivity|]. cbn [flat_map]. rewrite (H a) by now left. rewrite IH; [reflexivity|]. intros x X. apply H. now right. Qed.

(** the common part of adding a node *)
Lemma add_node b gs p g q k new C (c := last (kids gs p) p) (n := length (b_nodes b))
  (b' := alloc (put b c (if c =? p then with_child C n else with_next C n)) new) :
  St b gs -> p = look gs g q -> p <> 0 -> k <> 0%N -> n < slots -> get b c = Some C ->
  n_params new = false -> n_key new = k -> n_next new = p -> n_child new = 0 ->
  (n_bound new = true -> n_depth new = length (q ++ [k]) mod 16 /\ n_module new < length (b_modules b)) ->
  (look gs g (q ++ [k]) <> 0 -> n_bound new = true /\ exists m, get b (look gs g (q ++ [k])) = Some m /\ n_bound m = true) ->
  let gs' := gs ++ [Some (p, g, q ++ [k])] in
  St b' gs' /\ grows gs gs' g (q ++ [k]) /\ look gs' g (q ++ [k]) = (if look gs g (q ++ [k]) =? 0 then n else look gs g (q ++ [k])) /\
  (forall g0 q0, obs b' gs' g0 q0 = obs b gs g0 q0 ++ if (g =? g0) && keys_eq (q ++ [k]) q0 then view (b_modules b) (Some new) else []).
Proof.
  intros S P P0 K Hn HC A1 A2 A3 A4 A5 A6 gs'. destruct S as [S1 S2 S3 S4].
  assert (Z : at_ gs 0 = None) by apply S3.
  assert (G : forall i, i < n -> i <> c -> get b' i = get b i).
  { intros i Hi Hic. unfold b'. rewrite get_alloc. unfold put at 1. cbn [b_nodes]. rewrite set_nth_length. fold n. replace (i =? n) with false by lia.
    rewrite get_put by (now apply get_lt in HC). now replace (i =? c) with false by lia. }
  assert (Gn : get b' n = Some new).
  { unfold b'. rewrite get_alloc. unfold put at 1. cbn [b_nodes]. rewrite set_nth_length. fold n. now rewrite Nat.eqb_refl. }
  assert (Cn : c < n) by (now apply get_lt in HC).
  assert (Gc : get b' c = Some (if c =? p then with_child C n else with_next C n)).
  { unfold b'. rewrite get_alloc. unfold put at 1. cbn [b_nodes]. rewrite set_nth_length. fold n. replace (c =? n) with false by lia.
    rewrite get_put by (now apply get_lt in HC). now rewrite Nat.eqb_refl. }
  assert (N0 : 0 < n) by lia.
  assert (LN : look gs' g (q ++ [k]) = (if look gs g (q ++ [k]) =? 0 then n else look gs g (q ++ [k]))).
  { destruct (Nat.eqb_spec (look gs g (q ++ [k])) 0) as [E|E]; [|now apply look_keep].
    unfold look, gs'. rewrite ids_snoc. cbn [holds]. rewrite (look_none _ _ _ Z E), Nat.eqb_refl, keys_eq_refl. exact S1. }
  split; [constructor|split; [split; [|split]|split]].
  - unfold b', alloc, put. cbn [b_nodes]. rewrite app_length, set_nth_length. unfold gs'. rewrite app_length. cbn [length]. lia.
  - unfold gs'. rewrite app_length. cbn [length]. lia.
  - unfold b' at 2. unfold alloc, put. cbn [b_modules]. apply (inv_add (get b) _ _ _ _ _ _ k new); rewrite ?S1; try assumption. intros C' HC'. fold c in HC'. rewrite HC in HC'. injection HC' as <-. exact Gc.
  - intros i Hi A. unfold gs' in *. rewrite app_length in Hi. cbn [length] in Hi. destruct (Nat.eq_dec i (length gs)) as [->|X]; [rewrite at_new in A; discriminate|].
    rewrite at_old in A by lia. apply gslot_alloc, gslot_put; [rewrite HC; discriminate|]. apply S4; [lia|exact A].
  - intros g0 q0 H. now apply look_keep.
  - intros g0 q0 H. destruct (Nat.eq_dec (look gs g0 q0) 0) as [E|E]; [right|now left]. unfold look, gs' in H. rewrite ids_snoc, (look_none _ _ _ Z E) in H. cbn [holds] in H.
    destruct ((g =? g0) && keys_eq (q ++ [k]) q0) eqn:X; [|now elim H]. apply andb_true_iff in X as [X1 X2]. apply keys_eq_iff in X2. split; [lia|]. exists []. now rewrite app_nil_r.
  - unfold gs'. eauto.
  - exact LN.
  - intros g0 q0. unfold obs, gs'. rewrite ids_snoc, flat_map_app. cbn [holds]. f_equal.
    + apply flat_map_ext_in. intros i X%ids_in. destruct X as [p' X]. apply at_some in X. change (b_modules b') with (b_modules b). destruct (Nat.eq_dec i c) as [->|Hic].
      * rewrite Gc, HC. destruct (c =? p); reflexivity.
      * rewrite G by lia. reflexivity.
    + destruct ((g =? g0) && keys_eq (q ++ [k]) q0); [|reflexivity]. cbn [flat_map]. rewrite S1. fold n. rewrite Gn, app_nil_r. reflexivity.
Qed.

Lemma last_in {A} (l : list A) d : l <> [] -> In (last l d) l.
Proof. intros H. destruct (exists_last H) as (x & y & ->). rewrite last_last. apply in_or_app. right. now left. Qed.
Lemma kids_split gs p : kids gs p <> [] -> exists i l, kids gs p = i :: l.
Proof. destruct (kids gs p); [congruence|eauto]. Qed.
Lemma last_default {A} (l : list A) d d' : l <> [] -> last l d = last l d'.
Proof. intros H. destruct (exists_last H) as (x & y & ->). now rewrite !last_last. Qed.

Lemma full_ok b gs : St b gs -> full b = false -> length (b_nodes b) < slots.
Proof. intros S H. unfold full in H. lia. Qed.

Lemma insert_child_ok b gs g q k : St b gs -> look gs g q <> 0 -> k <> 0%N ->
  exists b' gs' i, insert_child b (look gs g q) k false = Some (b', i) /\ St b' gs' /\ b_modules b' = b_modules b /\ grows gs gs' g (q ++ [k]) /\
    (i <> 0 -> i = look gs' g (q ++ [k])) /\ (forall g0 q0, obs b' gs' g0 q0 = obs b gs g0 q0).
Proof.
  intros S H K. assert (S' := S). destruct S' as [S1 S2 S3 S4]. unfold insert_child. rewrite (find_child_ok b gs S3 S2 g q k H).
  destruct (look gs g (q ++ [k])) as [|c0] eqn:E.
  2:{ exists b, gs, (Datatypes.S c0). split; [reflexivity|]. split; [exact S|]. split; [reflexivity|]. split; [apply grows_refl|]. split; [congruence|reflexivity]. }
  unfold add_child. destruct (full b) eqn:F.
  { exists b, gs, 0. split; [reflexivity|]. split; [exact S|]. split; [reflexivity|]. split; [apply grows_refl|]. split; [congruence|reflexivity]. }
  destruct (look_in _ _ _ H) as [r A]. destruct (inv_node _ _ _ S3 _ _ _ _ A) as (P & HP & O). rewrite HP.
  pose proof (ok_child _ _ _ _ _ _ _ _ O) as CH. rewrite Nat.eqb_refl in CH.
  set (p := look gs g q) in *. set (new := mkN p 0 false 0 0 false k 0).
  set (n := length (b_nodes b)).
  assert (X : exists C, get b (last (kids gs p) p) = Some C /\
     (if n_child P <? p then Some (alloc (put b p (with_child P n)) new, n)
      else match find_tail slots b (n_child P) with None => None | Some tail => match get b tail with None => None | Some t => Some (alloc (put b tail (with_next t n)) new, n) end end)
     = Some (alloc (put b (last (kids gs p) p) (if last (kids gs p) p =? p then with_child C n else with_next C n)) new, n)).
  { rewrite CH. destruct (kids gs p) as [|a l] eqn:EK.
    - exists P. cbn [hd last]. split; [exact HP|]. replace (0 <? p) with true by lia. now rewrite Nat.eqb_refl.
    - assert (Q : In (last (a :: l) p) (kids gs p)) by (rewrite EK; apply last_in; discriminate).
      destruct (kid_info _ _ _ _ _ S3 Q) as (g' & q' & k' & C & _ & HC & _). destruct (kid_gt _ _ _ _ _ S3 Q) as [GT _]. exists C. split; [exact HC|].
      assert (Qa : In a (kids gs p)) by (rewrite EK; now left). destruct (kid_gt _ _ _ _ _ S3 Qa) as [GTa _].
      cbn [hd]. replace (a <? p) with false by lia. rewrite (find_tail_ok b gs S3 S2 p l a [] slots EK).
      + rewrite (last_default _ 0 p) by discriminate. rewrite HC. replace (last (a :: l) p =? p) with false by lia. reflexivity.
      + pose proof (idx_length gs (fun p' _ q' => (p' =? p) && nonempty q')) as Y. fold (kids gs p) in Y. rewrite EK in Y. cbn [length] in Y. lia. }
  destruct X as (C & HC & X). rewrite X.
  destruct (add_node b gs p g q k new C S eq_refl H K (full_ok _ _ S F) HC) as (R1 & R2 & R3 & R4); try reflexivity; [discriminate|congruence|].
  eexists _, _, n. split; [reflexivity|]. split; [exact R1|]. split; [reflexivity|]. split; [exact R2|]. split.
  - intros _. rewrite R3, E. reflexivity.
  - intros g0 q0. rewrite R4. cbn [view]. destruct (_ && _); now rewrite app_nil_r.
Qed.

Lemma insert_keys_ok : forall keys b gs g q, St b gs -> look gs g q <> 0 -> Forall (fun k => k <> 0%N) keys ->
  exists b' gs' i, insert_keys b (look gs g q) keys false = Some (b', i) /\ St b' gs' /\ b_modules b' = b_modules b /\ grows gs gs' g (q ++ keys) /\
    (i <> 0 -> i = look gs' g (q ++ keys)) /\ (forall g0 q0, obs b' gs' g0 q0 = obs b gs g0 q0) /\ (keys = [] -> i <> 0).
Proof.
  induction keys as [|k keys IH]; intros b gs g q S H F.
  - exists b, gs, (look gs g q). rewrite app_nil_r. split; [reflexivity|]. split; [exact S|]. split; [reflexivity|]. split; [apply grows_refl|]. split; [reflexivity|]. split; [reflexivity|now intros _].
  - pose proof (Forall_inv F) as K. apply Forall_inv_tail in F. cbn beta in K. cbn [insert_keys andb].
    destruct (insert_child_ok b gs g q k S H K) as (b1 & g1 & i & E & S1 & M1 & G1 & L1 & O1). rewrite E.
    assert (G1' : grows gs g1 g (q ++ k :: keys)).
    { destruct G1 as (X & Y & V0). split; [exact X|split; [|exact V0]]. intros g0 q0 W. destruct (Y _ _ W) as [V|[-> [s V]]]; [now left|]. right. split; [reflexivity|]. exists (s ++ keys). rewrite app_assoc, <- V, <- app_assoc. reflexivity. }
    destruct i as [|i].
    + exists b1, g1, 0. split; [reflexivity|]. split; [exact S1|]. split; [exact M1|]. split; [exact G1'|]. split; [congruence|]. split; [exact O1|discriminate].
    + assert (Li : look g1 g (q ++ [k]) = Datatypes.S i) by (symmetry; now apply L1).
      destruct (IH b1 g1 g (q ++ [k]) S1) as (b2 & g2 & j & E2 & S2 & M2 & G2 & L2 & O2 & _); [rewrite Li; discriminate|exact F|].
      rewrite Li in E2. rewrite <- app_assoc in *. cbn [app] in *. exists b2, g2, j. split; [exact E2|]. split; [exact S2|]. split; [congruence|].
      split; [now apply grows_trans with g1|]. split; [exact L2|]. split; [intros g0 q0; now rewrite O2|discriminate].
Qed.

Lemma index_of_ok l m : forall i j, index_of l m i = Some j -> i <= j /\ j < i + length l /\ nth (j - i) l 0%N = m.
Proof.
  induction l as [|x l IH]; intros i j H; cbn [index_of] in H; [discriminate|]. destruct (N.eqb_spec x m) as [->|].
  - injection H as <-. rewrite Nat.sub_diag. cbn [length nth]. split; [lia|]. split; [lia|reflexivity].
  - apply IH in H as (H1 & H2 & H3). cbn [length]. split; [lia|]. split; [lia|]. replace (j - i) with (S (j - S i)) by lia. exact H3.
Qed.
Lemma inv_mods nd gs m m' : Inv nd gs m -> m <= m' -> Inv nd gs m'.
Proof.
  intros [Z I] H. constructor; [exact Z|]. intros i p g q A. destruct (I _ _ _ _ A) as (n & Hn & O). exists n. split; [exact Hn|]. destruct O as [O1 O2 O3 O4 O5 O6]. constructor; auto.
  intros B. destruct (O2 B). lia.
Qed.
Lemma add_module_ok b gs m b1 o : St b gs -> add_module b m = (b1, o) ->
  St b1 gs /\ (forall g q, obs b1 gs g q = obs b gs g q) /\ match o with None => b1 = b | Some mi => mi < length (b_modules b1) /\ nth mi (b_modules b1) 0%N = m end.
Proof.
  intros S E. unfold add_module in E. destruct (index_of (b_modules b) m 0) as [i|] eqn:X.
  - injection E as <- <-. apply index_of_ok in X as (X1 & X2 & X3). split; [exact S|]. split; [reflexivity|]. rewrite Nat.sub_0_r in X3. split; [lia|exact X3].
  - destruct (_ <? _); [|injection E as <- <-; auto]. injection E as <- <-. split; [|split].
    + destruct S as [S1 S2 S3 S4]. constructor; [exact S1|exact S2| |exact S4]. cbn [b_modules]. rewrite app_length. apply inv_mods with (length (b_modules b)); [exact S3|lia].
    + intros g q. unfold obs. apply flat_map_ext_in. intros i Hi. apply ids_in in Hi as [p A]. cbn [b_modules]. change (get (mkB (b_nodes b) (b_modules b ++ [m])) i) with (get b i).
      destruct (inv_node _ _ _ (st_inv _ _ S) _ _ _ _ A) as (n & Hn & O). rewrite Hn. cbn [view]. destruct (n_bound n) eqn:B; [|reflexivity].
      destruct (ok_bound _ _ _ _ _ _ _ _ O B). now rewrite app_nth1.
    + cbn [b_modules]. rewrite app_length. cbn [length]. split; [lia|]. rewrite app_nth2, Nat.sub_diag by lia. reflexivity.
Qed.

(** marking a node as bound *)
Lemma set_bound b gs j p g q n n' : St b gs -> at_ gs j = Some (p, g, q) -> get b j = Some n ->
  n_next n' = n_next n -> n_params n' = n_params n -> n_child n' = n_child n -> n_key n' = n_key n -> n_bound n' = true -> n_depth n' = length q mod 16 -> n_module n' < length (b_modules b) ->
  St (put b j n') gs.
Proof.
  intros S A G E1 E2 E3 E4 E5 E6 E7. assert (J := get_lt _ _ _ G). destruct S as [S1 S2 S3 S4]. constructor.
  - unfold put. cbn [b_nodes]. now rewrite set_nth_length.
  - exact S2.
  - change (b_modules (put b j n')) with (b_modules b).
    apply (inv_bound (get b) (get (put b j n')) gs (length (b_modules b)) (length (b_modules b)) j p g q n n'); try assumption; [lia| |].
    + rewrite get_put by exact J. now rewrite Nat.eqb_refl.
    + intros i Hi. rewrite get_put by exact J. now replace (i =? j) with false by lia.
  - intros i Hi Ai. apply gslot_put; [congruence|]. now apply S4.
Qed.

Lemma hd_tl_look gs g q : look gs g q <> 0 -> exists l, ids gs g q = look gs g q :: l.
Proof. unfold look. destruct (ids gs g q) as [|a l]; [now intros []|]. intros _. now exists l. Qed.
Lemma ids_nodup_hd gs g q l : ids gs g q = look gs g q :: l -> ~ In (look gs g q) l.
Proof.
  intros E X. pose proof (idx_sorted gs (fun _ g' q' => (g' =? g) && keys_eq q' q)) as S. fold (ids gs g q) in S. rewrite E in S.
  apply StronglySorted_inv in S as [_ F]. rewrite Forall_forall in F. specialize (F _ X). lia.
Qed.

Lemma put_last b n0 n : put (alloc b n0) (length (b_nodes b)) n = alloc b n.
Proof.
  unfold put, alloc, set_nth. cbn [b_nodes b_modules]. rewrite firstn_app_exact by reflexivity. rewrite skipn_app_exact by reflexivity. reflexivity.
Qed.

Lemma bind_keys_ok b gs g keys m id b' ok : St b gs -> look gs g [] = g -> g <> 0 -> Forall (fun k => k <> 0%N) keys ->
  bind_keys b g keys m id false = Some (b', ok) ->
  exists gs', St b' gs' /\ grows gs gs' g keys /\ (ok = true -> look gs' g keys <> 0) /\
    (forall g0 q0, obs b' gs' g0 q0 = obs b gs g0 q0 ++ if ok && ((g =? g0) && keys_eq keys q0) then [(m, id)] else []).
Proof.
  intros S R G0 F E. unfold bind_keys in E. destruct (add_module b m) as [b1 o] eqn:EM. destruct (add_module_ok _ _ _ _ _ S EM) as (S1 & O1 & MI).
  destruct o as [mi|].
  2:{ injection E as <- <-. exists gs. split; [exact S1|]. split; [apply grows_refl|]. split; [discriminate|]. intros. cbn [andb]. now rewrite app_nil_r, O1. }
  destruct MI as [MI1 MI2].
  assert (LR : look gs g [] <> 0) by congruence.
  destruct (insert_keys_ok keys b1 gs g [] S1 LR F) as (b2 & g2 & head & E2 & S2 & M2 & G2 & L2 & O2 & K2). cbn [app] in *.
  replace (insert_keys b1 g keys false) with (Some (b2, head)) in E by (rewrite <- R at 1; congruence).
  assert (FAIL : forall b0, Some (b0, false) = Some (b', ok) -> b0 = b2 -> exists gs', St b' gs' /\ grows gs gs' g keys /\ (ok = true -> look gs' g keys <> 0) /\
    (forall g0 q0, obs b' gs' g0 q0 = obs b gs g0 q0 ++ if ok && ((g =? g0) && keys_eq keys q0) then [(m, id)] else [])).
  { intros b0 X Y. injection X as <- <-. subst b0. exists g2. split; [exact S2|]. split; [exact G2|]. split; [discriminate|]. intros. cbn [andb]. now rewrite app_nil_r, O2, O1. }
  destruct (Nat.eq_dec head 0) as [->|H0].
  { rewrite Nat.eqb_refl in E. cbn [andb] in E. destruct keys as [|k0 keys]; [now elim K2|]. cbn [negb] in E. exact (FAIL _ E eq_refl). }
  replace (head =? 0) with false in E by lia. cbn [andb] in E. specialize (L2 H0). rewrite L2 in H0.
  destruct (look_in _ _ _ H0) as [p A]. rewrite <- L2 in A. destruct (inv_node _ _ _ (st_inv _ _ S2) _ _ _ _ A) as (n & Hn & O). rewrite Hn in E.
  destruct (n_bound n) eqn:B.
  - destruct (rev keys) as [|k0 rk] eqn:RK; [discriminate|]. assert (KE : keys = rev rk ++ [k0]) by (rewrite <- (rev_involutive keys), RK; reflexivity).
    destruct (ok_key _ _ _ _ _ _ _ _ O _ _ KE) as (Q1 & Q2 & Q3 & Q4 & Q5 & Q6).
    unfold append in E. destruct (full b2) eqn:FU; [exact (FAIL _ E eq_refl)|].
    assert (Hk : In head (kids g2 p)) by (apply kids_in; exists g, keys; split; [exact A|rewrite KE; now destruct (rev rk)]).
    destruct (in_split _ _ Hk) as (pre & l & EK).
    rewrite (find_tail_ok b2 g2 (st_inv _ _ S2) (st_slots _ _ S2) p l head pre slots EK) in E.
    2:{ pose proof (idx_length g2 (fun p' _ q' => (p' =? p) && nonempty q')) as Y. fold (kids g2 p) in Y. rewrite EK, app_length in Y. cbn [length] in Y. pose proof (st_slots _ _ S2). lia. }
    assert (LE : last (head :: l) 0 = last (kids g2 p) p).
    { rewrite EK. clear. induction pre as [|a pre IH]; [apply last_default; discriminate|]. cbn [app]. rewrite IH. destruct (pre ++ head :: l) eqn:X; [now destruct pre|reflexivity]. }
    rewrite LE in E. set (c := last (kids g2 p) p) in *.
    assert (Hc : In c (kids g2 p)) by (apply last_in; rewrite EK; now destruct pre).
    destruct (kid_info _ _ _ _ _ (st_inv _ _ S2) Hc) as (g' & q' & k' & C & AC & HC & OC). destruct (kid_gt _ _ _ _ _ (st_inv _ _ S2) Hc) as [GT _].
    rewrite HC in E. set (nn := length (b_nodes b2)) in *.
    assert (NC : n_next C = p).
    { destruct (ok_key _ _ _ _ _ _ _ _ OC _ _ eq_refl) as (_ & _ & _ & _ & _ & X). rewrite X. destruct (@exists_last _ (kids g2 p)) as (x & y & EL); [rewrite EK; now destruct pre|].
      assert (c = y) as -> by (unfold c; now rewrite EL, last_last). now apply (after_split _ _ x _ []). }
    assert (NN : nn <> 0) by (unfold nn; rewrite <- (st_len _ _ S2); apply at_some in AC; lia).
    destruct nn as [|nn'] eqn:EN; [congruence|]. rewrite <- EN in *. clear nn' EN.
    rewrite get_alloc in E. change (length (b_nodes (put b2 c (with_next C nn)))) with (length (set_nth (b_nodes b2) c (SNode (with_next C nn)))) in E.
    rewrite set_nth_length in E. fold nn in E. rewrite Nat.eqb_refl in E. cbn [n_next n_params n_child n_key] in E.
    set (new := mkN (n_next C) mi false 0 (length keys mod 16) true k0 id) in *.
    assert (PL : put (alloc (put b2 c (with_next C nn)) (mkN (n_next C) 0 false 0 0 false k0 0)) nn new = alloc (put b2 c (with_next C nn)) new).
    { rewrite <- (put_last (put b2 c (with_next C nn)) (mkN (n_next C) 0 false 0 0 false k0 0) new). f_equal. unfold put. cbn [b_nodes]. now rewrite set_nth_length. }
    rewrite PL in E. injection E as <- <-.
    destruct (add_node b2 g2 p g (rev rk) k0 new C) as (R1 & R2 & R3 & R4); try assumption; try reflexivity.
    + now apply (full_ok _ g2).
    + intros _. split; [cbn [n_depth new]; now rewrite <- KE|cbn [n_module new]; now rewrite M2].
    + rewrite <- KE. intros _. split; [reflexivity|]. exists n. split; [congruence|exact B].
    + fold c in R1, R4. replace (c =? p) with false in R1, R4 by lia. fold nn in R1, R4. rewrite <- KE in *.
      eexists. split; [exact R1|]. split; [now apply grows_trans with g2|]. split.
      * intros _. rewrite R3. destruct (look g2 g keys =? 0); [lia|congruence].
      * intros g0 q0. rewrite R4, O2, O1. cbn [andb view n_bound n_module n_id new]. now rewrite M2, MI2.
  - destruct head as [|h0]; [congruence|]. rewrite Hn in E.
    set (n' := mkN (n_next n) mi (n_params n) (n_child n) (length keys mod 16) true (n_key n) id) in *. injection E as <- <-.
    exists g2. split.
    + apply (set_bound b2 g2 _ p g keys n n' S2 A Hn); try reflexivity. cbn [n_module n']. now rewrite M2.
    + split; [exact G2|]. split; [intros _; exact H0|]. intros g0 q0. cbn [andb]. rewrite <- O1, <- O2. unfold obs. change (b_modules (put b2 (Datatypes.S h0) n')) with (b_modules b2).
      destruct ((g =? g0) && keys_eq keys q0) eqn:X.
      * apply andb_true_iff in X as [X1 X2]. apply Nat.eqb_eq in X1. apply keys_eq_iff in X2. subst g0 q0.
        destruct (hd_tl_look _ _ _ H0) as [l EL]. destruct l as [|d l].
        -- rewrite EL. cbn [flat_map]. rewrite <- L2, get_put by (now apply get_lt in Hn). rewrite Nat.eqb_refl, Hn. cbn [view n_bound n_module n_id n']. rewrite B, M2, MI2. reflexivity.
        -- exfalso. assert (D : In d (ids g2 g keys)) by (rewrite EL; right; now left). apply ids_in in D as [p' D].
           destruct (inv_node _ _ _ (st_inv _ _ S2) _ _ _ _ D) as (nd & _ & OD). apply ids_nodup_hd in EL. destruct (ok_dup _ _ _ _ _ _ _ _ OD) as (_ & m0 & Z1 & Z2).
           ++ intros Y. apply EL. left. congruence.
           ++ rewrite <- L2, Hn in Z1. congruence.
      * rewrite app_nil_r. apply flat_map_ext_in. intros i Hi. apply ids_in in Hi as [p' Hi]. rewrite get_put by (now apply get_lt in Hn).
        destruct (Nat.eqb_spec i (Datatypes.S h0)) as [->|]; [|reflexivity]. exfalso. rewrite A in Hi. injection Hi as _ -> ->. rewrite Nat.eqb_refl, keys_eq_refl in X. discriminate.
Qed.

(** * Groups *)
Lemma inv_none nd gs mods : Inv nd gs mods -> Inv nd (gs ++ [None]) mods.
Proof.
  intros [Z I]. assert (A0 : forall i, at_ (gs ++ [None]) i = at_ gs i).
  { intros i. destruct (Nat.lt_ge_cases i (length gs)) as [H|H]; [now apply at_old|]. unfold at_. rewrite (nth_overflow gs) by lia.
    destruct (Nat.eq_dec i (length gs)) as [->|]; [apply at_new|]. rewrite nth_overflow; [reflexivity|]. rewrite app_length. cbn [length]. lia. }
  assert (L0 : forall g q, look (gs ++ [None]) g q = look gs g q) by (intros; unfold look; rewrite ids_snoc; cbn [holds]; now rewrite app_nil_r).
  assert (K0 : forall p, kids (gs ++ [None]) p = kids gs p) by (intros; rewrite kids_snoc; cbn [holds]; now rewrite app_nil_r).
  constructor; [now rewrite A0|]. intros i p g q. rewrite A0. intros A. destruct (I _ _ _ _ A) as (n & Hn & [O1 O2 O3 O4 O5 O6]). exists n. split; [exact Hn|].
  constructor; [exact O1|exact O2|exact O3| | |]; unfold after; rewrite ?K0, ?L0; auto.
  intros q' k E. rewrite L0. now apply O4.
Qed.
Lemma inv_root nd nd' gs mods (n := length gs) : Inv nd gs mods -> n <> 0 -> (forall i, i < n -> nd' i = nd i) -> nd' n = Some zero_node -> Inv nd' (gs ++ [Some (0, n, [])]) mods.
Proof.
  intros I N0 Ho Hn. assert (Z : at_ gs 0 = None) by apply I.
  assert (K0 : forall p, kids (gs ++ [Some (0, n, [])]) p = kids gs p) by (intros; rewrite kids_snoc; cbn [holds nonempty]; now rewrite andb_false_r, app_nil_r).
  assert (LE : look gs n [] = 0).
  { unfold look. destruct (ids gs n []) as [|a l] eqn:E; [reflexivity|]. exfalso. assert (X : In a (ids gs n [])) by (rewrite E; now left). apply ids_in in X as [p X].
    destruct (inv_node _ _ _ I _ _ _ _ X) as (m & _ & O). destruct (ok_root _ _ _ _ _ _ _ _ O eq_refl) as (_ & Y & _). apply at_some in X. fold n in X. lia. }
  constructor; [rewrite at_old by (fold n; lia); exact Z|].
  intros i p g q A. assert (Hi := at_some _ _ _ A). rewrite app_length in Hi. cbn [length] in Hi. fold n in Hi.
  destruct (Nat.eq_dec i n) as [->|Hin].
  - unfold n in A. rewrite at_new in A. injection A as <- <- <-. fold n. exists zero_node. split; [exact Hn|].
    assert (LL : look (gs ++ [Some (0, n, [])]) n [] = n) by (unfold look; rewrite ids_snoc, (look_none _ _ _ Z LE); cbn [holds]; rewrite Nat.eqb_refl, keys_eq_refl; reflexivity).
    constructor; cbn [zero_node n_params n_bound n_key n_next n_child]; rewrite ?LL, ?Nat.eqb_refl, ?K0; try reflexivity; try discriminate.
    + auto.
    + intros q' k E. now destruct q'.
    + destruct (kids gs n) as [|a l] eqn:E; [reflexivity|]. assert (Q : In a (kids gs n)) by (rewrite E; now left). pose proof (kid_gt _ _ _ _ _ I Q).
      apply kids_in in Q as (? & ? & Q & _). apply at_some in Q. fold n in Q. lia.
    + now intros [].
  - rewrite at_old in A by (fold n; lia). destruct (inv_node _ _ _ I _ _ _ _ A) as (m & Hm & O). exists m. rewrite Ho by lia. split; [exact Hm|].
    assert (LI : look gs g q <> 0 /\ look gs g q <= i) by (apply look_some; [exact Z|apply ids_in; eauto]).
    destruct O as [O1 O2 O3 O4 O5 O6]. constructor; [exact O1|exact O2|exact O3| | |]; unfold after; rewrite ?K0; rewrite ?look_keep by (first [exact Z|apply LI]); auto.
    + intros q' k E. destruct (O4 _ _ E) as (R1 & R2 & R3 & R4 & R5 & R6). rewrite look_keep by (first [exact Z|congruence]). repeat (split; [assumption|]). exact R6.
    + rewrite Ho by lia. exact O6.
Qed.

Lemma create_group_ok b gs name b' g : St b gs -> create_group b name = (b', Some g) ->
  exists gs', St b' gs' /\ look gs' g [] = g /\ g <> 0 /\ (forall g0 q0, obs b' gs' g0 q0 = obs b gs g0 q0) /\
   (forall g0 q0, look gs g0 q0 <> 0 -> look gs' g0 q0 = look gs g0 q0) /\ (forall g0 q0, look gs' g0 q0 <> 0 -> look gs g0 q0 <> 0 \/ q0 = []) /\
   (exists l, gs' = gs ++ l) /\ at_ gs' (pred g) = None /\ g < slots.
Proof.
  intros [S1 S2 S3 S4] E. unfold create_group in E. destruct name as [|c name]; [discriminate|].
  destruct (slots <? length (b_nodes b) + 2) eqn:F; [discriminate|]. destruct (b_nodes b) as [|[nx h|nd0] r] eqn:EB; try discriminate.
  injection E as <- <-. set (n := length (b_nodes b)). assert (N0 : n <> 0) by (unfold n; rewrite EB; discriminate).
  assert (LN : length (SGroup nx h :: r) = n) by (unfold n; now rewrite EB). change (S (length r)) with (length (SGroup nx h :: r)). rewrite LN.
  set (nodes' := SGroup n h :: r ++ [SGroup nx (str_hash (c :: name)); SNode zero_node]).
  assert (ND : nodes' = (SGroup n h :: r) ++ [SGroup nx (str_hash (c :: name)); SNode zero_node]) by reflexivity.
  assert (LN' : length (SGroup n h :: r) = n) by exact LN.
  assert (G : forall i, i < n -> get (mkB nodes' (b_modules b)) i = get b i).
  { intros i Hi. unfold get. cbn [b_nodes]. rewrite ND, nth_error_app1 by lia. rewrite EB. destruct i; reflexivity. }
  assert (Gn : get (mkB nodes' (b_modules b)) n = None).
  { unfold get. cbn [b_nodes]. rewrite ND, nth_error_app2 by lia. rewrite LN', Nat.sub_diag. reflexivity. }
  assert (Gn' : get (mkB nodes' (b_modules b)) (S n) = Some zero_node).
  { unfold get. cbn [b_nodes]. rewrite ND, nth_error_app2 by lia. rewrite LN'. replace (S n - n) with 1 by lia. reflexivity. }
  assert (Lg : length (gs ++ [None]) = S n) by (rewrite app_length; cbn [length]; lia).
  assert (Z : at_ (gs ++ [None]) 0 = None) by (rewrite at_old by lia; apply S3).
  assert (L0 : forall g q, ids (gs ++ [None]) g q = ids gs g q) by (intros; rewrite ids_snoc; cbn [holds]; now rewrite app_nil_r).
  assert (X : Inv (get (mkB nodes' (b_modules b))) ((gs ++ [None]) ++ [Some (0, S n, [])]) (length (b_modules b))).
  { rewrite <- Lg. apply inv_root with (get b); [now apply inv_none|lia| |now rewrite Lg].
    intros i Hi. destruct (Nat.eq_dec i n) as [->|]; [|apply G; lia]. rewrite Gn. unfold get. rewrite (proj2 (nth_error_None (b_nodes b) n)) by (fold n; lia). reflexivity. }
  exists ((gs ++ [None]) ++ [Some (0, S n, [])]). split; [constructor|].
  - cbn [b_nodes]. rewrite app_length, Lg, ND, app_length, LN'. cbn [length]. lia.
  - rewrite app_length, Lg. cbn [length]. lia.
  - exact X.
  - intros i Hi A. rewrite app_length, Lg in Hi. cbn [length] in Hi. cbn [b_nodes]. destruct (Nat.eq_dec i (S n)) as [->|].
    + rewrite <- Lg, at_new in A. discriminate.
    + destruct (Nat.eq_dec i n) as [->|]; [exists nx, (str_hash (c :: name)); rewrite ND, nth_error_app2 by lia; rewrite LN', Nat.sub_diag; reflexivity|].
      rewrite !at_old in A by lia. destruct (S4 i ltac:(lia) A) as (x0 & h0 & Y). rewrite ?EB in Y. rewrite ND, nth_error_app1 by lia. destruct i as [|i]; [exists n, h; reflexivity|exists x0, h0; exact Y].
  - assert (RO : forall i p g q, at_ ((gs ++ [None]) ++ [Some (0, S n, [])]) i = Some (p, g, q) -> q = [] -> g = i).
    { intros i p g q A Hq. destruct (inv_node _ _ _ X _ _ _ _ A) as (m & _ & O). now destruct (ok_root _ _ _ _ _ _ _ _ O Hq) as (_ & Y & _). }
    assert (AN : at_ ((gs ++ [None]) ++ [Some (0, S n, [])]) (S n) = Some (0, S n, [])) by (rewrite <- Lg at 2; now rewrite at_new).
    split; [|split; [lia|split; [|split; [|split; [|split; [|split]]]]]].
    + assert (Y : In (S n) (ids ((gs ++ [None]) ++ [Some (0, S n, [])]) (S n) [])) by (apply ids_in; eauto).
      destruct (look_some _ _ _ _ (inv_zero _ _ _ X) Y) as [Y1 Y2]. destruct (look_in _ _ _ Y1) as [p Y3]. symmetry. now apply (RO _ _ _ _ Y3).
    + intros g0 q0. unfold obs. rewrite ids_snoc, L0, flat_map_app, Lg. cbn [holds b_modules].
      replace (flat_map _ (if (S n =? g0) && keys_eq [] q0 then [S n] else [])) with (@nil (N * N)) by (destruct ((S n =? g0) && keys_eq [] q0); cbn [flat_map]; rewrite ?Gn'; reflexivity).
      rewrite app_nil_r. apply flat_map_ext_in. intros i Hi. apply ids_in in Hi as [p Hi]. apply at_some in Hi. rewrite G by lia. reflexivity.
    + intros g0 q0 H. rewrite look_keep; unfold look in *; rewrite ?L0; auto.
    + intros g0 q0 H. destruct (Nat.eq_dec (look gs g0 q0) 0) as [Y|Y]; [|now left]. right. unfold look in H. rewrite ids_snoc, L0, (look_none _ _ _ (inv_zero _ _ _ S3) Y) in H. cbn [holds] in H.
      destruct ((S n =? g0) && keys_eq [] q0) eqn:W; [|now elim H]. apply andb_true_iff in W as [_ W]. symmetry. now apply keys_eq_iff.
    + exists ([None] ++ [Some (0, S n, [])]). now rewrite app_assoc.
    + cbn [pred]. rewrite at_old by lia. replace n with (length gs) by lia. apply at_new.
    + lia.
Qed.

(** * Histories *)
Record Hist (b : binder) (B : list entry) (gr : list nat) (ok : bool) (gs : list info) : Prop := {
  h_st : St b gs;
  h_gr : forall g, In g gr -> look gs g [] = g /\ g <> 0 /\ g < slots /\ g < length gs /\ at_ gs (pred g) = None;
  h_obs : forall g q, obs b gs g q = bound_to B g q;
  h_B : forall g q mi, In (g, q, mi) B -> In g gr /\ good_keys q /\ look gs g q <> 0;
  h_len : forall g q, look gs g q <> 0 -> length q <= 15;
  h_path : ok = true -> forall g q, look gs g q <> 0 -> q = [] \/ exists s mi, In (g, q ++ s, mi) B }.

Lemma bound_snoc B g q mi g0 q0 : bound_to (B ++ [(g, q, mi)]) g0 q0 = bound_to B g0 q0 ++ if (g =? g0) && keys_eq q q0 then [mi] else [].
Proof. unfold bound_to. rewrite filter_app, map_app. f_equal. cbn [filter]. unfold is_for. cbn [fst snd]. destruct (_ && _); reflexivity. Qed.

Lemma hist0 : Hist binder0 [] [1] true [None; Some (0, 1, [])].
Proof.
  assert (X : forall i, at_ [None; Some (0, 1, [])] i = if i =? 1 then Some (0, 1, []) else None).
  { intros [|[|i]]; [reflexivity|reflexivity|]. unfold at_. cbn [nth]. destruct i; reflexivity. }
  constructor.
  - constructor; [reflexivity|cbn [length]; unfold slots; lia| |].
    + constructor; [reflexivity|]. intros i p g q A. rewrite X in A. destruct (Nat.eqb_spec i 1) as [->|]; [|discriminate]. injection A as <- <- <-. exists zero_node. split; [reflexivity|].
      constructor; try reflexivity; try discriminate; [auto|intros [|? ?] ? ?; discriminate|now intros []].
    + intros i Hi A. destruct i as [|[|i]]; [exists 0, 0%N; reflexivity|discriminate|cbn [length] in Hi; lia].
  - intros g [<-|[]]. split; [reflexivity|]. split; [lia|]. split; [unfold slots; lia|]. split; [cbn [length]; lia|reflexivity].
  - intros g q. unfold bound_to. cbn [filter map]. unfold obs. assert (forall l, (forall i, In i l -> i = 1) -> flat_map (fun i => view (b_modules binder0) (get binder0 i)) l = []) as Y.
    { induction l as [|i l IH]; intros Hl; [reflexivity|]. cbn [flat_map]. rewrite IH by (intros; apply Hl; now right). rewrite (Hl i) by now left. reflexivity. }
    apply Y. intros i Hi. apply ids_in in Hi as [p Hi]. rewrite X in Hi. destruct (Nat.eqb_spec i 1); [assumption|discriminate].
  - intros g q mi [].
  - intros g q H. destruct (look_in _ _ _ H) as [p A]. rewrite X in A. destruct (_ =? 1); [|discriminate]. injection A as _ _ <-. cbn [length]. lia.
  - intros _ g q H. left. destruct (look_in _ _ _ H) as [p A]. rewrite X in A. destruct (_ =? 1); [|discriminate]. now injection A.
Qed.

Section History.
Variable esc : option (list N).
Lemma exec_ok b B gr ok gs o b' B' gr' ok' : Hist b B gr ok gs -> good_op esc o -> exec esc (b, B, gr, ok) o = Some (b', B', gr', ok') -> exists gs', Hist b' B' gr' ok' gs'.
Proof.
  intros [H1 H2 H3 H4 HL H5] G E. unfold exec in E. destruct o as [name|g chord m id].
  - destruct (create_group b name) as [b1 [g|]] eqn:EG.
    + injection E as <- <- <- <-. destruct (create_group_ok _ _ _ _ _ H1 EG) as (gs' & S' & L1 & L2 & O & K1 & K2 & (l & GS) & A' & SL). exists gs'.
      assert (AT : forall i, i < length gs -> at_ gs' i = at_ gs i) by (intros i Hi; rewrite GS; unfold at_; now rewrite app_nth1). constructor.
      * exact S'.
      * intros g0 [<-|Hg].
        -- split; [exact L1|]. split; [exact L2|]. split; [exact SL|]. split; [|exact A']. rewrite <- L1. destruct (look_in gs' g []) as [p Q]; [congruence|]. now apply at_some in Q.
        -- destruct (H2 _ Hg) as (X & Y & Y1 & Y2 & Y3). rewrite K1 by congruence. split; [exact X|]. split; [exact Y|]. split; [exact Y1|]. split; [rewrite GS, app_length; lia|]. rewrite AT by lia. exact Y3.
      * intros. now rewrite O.
      * intros g0 q mi Hi. destruct (H4 _ _ _ Hi) as (X1 & X2 & X3). split; [now right|]. split; [exact X2|]. now rewrite K1.
      * intros g0 q0 L. destruct (K2 _ _ L) as [X| ->]; [now apply (HL g0)|cbn [length]; lia].
      * intros Hok g0 q0 L. destruct (K2 _ _ L) as [X|X]; [now apply H5|now left].
    + injection E as <- <- <- <-. unfold create_group in EG. exists gs.
      assert (b1 = b) as -> by (destruct name; [congruence|]; destruct (_ <? _); [congruence|]; destruct (b_nodes b) as [|[]]; congruence). constructor; assumption.
  - destruct (existsb (Nat.eqb g) gr) eqn:EX; [|discriminate]. apply existsb_exists in EX as (g1 & Hg & EX). apply Nat.eqb_eq in EX. subst g1.
    destruct (H2 _ Hg) as (L0 & N0 & _). unfold bind in E. cbn [good_op] in G.
    destruct (slots <=? g).
    { injection E as <- <- <- <-. exists gs. constructor; try assumption. discriminate. }
    destruct (translate esc chord) as [keys|].
    2:{ injection E as <- <- <- <-. exists gs. constructor; try assumption. discriminate. }
    destruct (bind_keys b g keys m id false) as [[b1 k]|] eqn:EB; [|discriminate].
    destruct (bind_keys_ok _ _ _ _ _ _ _ _ H1 L0 N0 (proj1 G) EB) as (gs' & S' & (K1 & K2 & l & GS) & LK & O).
    assert (AT : forall i, i < length gs -> at_ gs' i = at_ gs i) by (intros i Hi; rewrite GS; unfold at_; now rewrite app_nth1).
    assert (GR : forall g0, In g0 gr -> look gs' g0 [] = g0 /\ g0 <> 0 /\ g0 < slots /\ g0 < length gs' /\ at_ gs' (pred g0) = None).
    { intros g0 Hg0. destruct (H2 _ Hg0) as (X & Y & Y1 & Y2 & Y3). rewrite K1 by congruence. split; [exact X|]. split; [exact Y|]. split; [exact Y1|]. split; [rewrite GS, app_length; lia|]. rewrite AT by lia. exact Y3. }
    assert (LEN : forall g0 q0, look gs' g0 q0 <> 0 -> length q0 <= 15).
    { intros g0 q0 L. destruct (K2 _ _ L) as [X|[-> [s X]]]; [now apply (HL g0)|]. destruct G as [_ G]. rewrite X, app_length in G. lia. }
    exists gs'. destruct k; injection E as <- <- <- <-.
    + constructor.
      * exact S'.
      * exact GR.
      * intros g0 q0. rewrite O, bound_snoc, H3. reflexivity.
      * intros g0 q0 mi Hi. apply in_app_or in Hi as [Hi|[Hi|[]]].
        -- destruct (H4 _ _ _ Hi) as (X1 & X2 & X3). split; [exact X1|]. split; [exact X2|]. now rewrite K1.
        -- injection Hi as <- <- <-. split; [exact Hg|]. split; [exact G|]. now apply LK.
      * exact LEN.
      * intros Hok g0 q0 L. destruct (K2 _ _ L) as [X|[-> [s X]]].
        -- destruct (H5 Hok _ _ X) as [Y|(s & mi & Y)]; [now left|]. right. exists s, mi. apply in_or_app. now left.
        -- right. exists s, (m, id). apply in_or_app. right. left. now rewrite X.
    + constructor; try assumption; [| |discriminate].
      * intros g0 q0. rewrite O. cbn [andb]. now rewrite app_nil_r, H3.
      * intros g0 q0 mi Hi. destruct (H4 _ _ _ Hi) as (X1 & X2 & X3). split; [exact X1|]. split; [exact X2|]. now rewrite K1.
Qed.
Lemma history_ok h b B gr ok : Forall (good_op esc) h -> history esc h = Some (b, B, gr, ok) -> exists gs, Hist b B gr ok gs.
Proof.
  unfold history. intros F. assert (X : exists gs, Hist binder0 [] [1] true gs) by (eexists; apply hist0). revert F X.
  generalize (@nil entry) as B0. generalize true as ok0. generalize [1] as gr0. generalize binder0 as b0.
  induction h as [|o h IH]; intros b0 gr0 ok0 B0 F [gs X] E; cbn [execs] in E.
  - injection E as <- <- <- <-. eauto.
  - destruct (exec esc (b0, B0, gr0, ok0) o) as [[[[b1 B1] gr1] ok1]|] eqn:EE; [|discriminate].
    apply (IH b1 gr1 ok1 B1); [now apply Forall_inv_tail in F| |exact E]. apply (exec_ok _ _ _ _ _ _ _ _ _ _ X (Forall_inv F) EE).
Qed.
End History.
