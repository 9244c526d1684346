(** Proofs about wildmatch. *)
From Verif Require Import Base WmModel WmSpec.
Local Open Scope N_scope.

Lemma slash_iff f d : is_slash f d = true <-> slash f d.
Proof.
  unfold is_slash, slash. rewrite orb_true_iff, andb_true_iff, !N.eqb_eq. reflexivity.
Qed.
Lemma slash_not f d : is_slash f d = false <-> ~ slash f d.
Proof. rewrite <- slash_iff. destruct (is_slash f d); split; congruence. Qed.
Lemma same_iff f c d : same f c d = true <-> alike f c d.
Proof.
  unfold same, alike. rewrite !orb_true_iff, !andb_true_iff, !N.eqb_eq, slash_iff.
  change (to_lower c) with (lower_case c). change (to_lower d) with (lower_case d). tauto.
Qed.
Lemma class_iff high k c : is_class high k c = true <-> in_class high k c.
Proof.
  unfold is_class, in_class. destruct (N.leb_spec 128 c) as [H|H].
  - split; [left; auto|]. intros [[_ E]|[E _]]; [exact E|lia].
  - split.
    + intro E. right. split; [exact H|]. destruct k; cbv iota in E |- *; unfold within, letter, digit_, space_, print_, lower_case in *; try lia.
      destruct ((65 <=? c) && (c <=? 90)) eqn:L; lia.
    + intros [[E _]|[_ E]]; [lia|]. destruct k; cbv iota in E |- *; unfold within, letter, digit_, space_, print_, lower_case in *; try lia.
      destruct ((65 <=? c) && (c <=? 90)) eqn:L; lia.
Qed.

(** ** Brackets *)
Section Range.
Variable high : class -> N -> bool.
Variable f : flags.

Lemma elems_shape first es t : writes_elems f first es t -> (t = [93] /\ es = []) \/ (exists a b r, t = a :: b :: r /\ es <> []).
Proof.
  intro H. destruct H as [|first c b es t O F N1 N2 W|first a b x y es t O1 O2 F N1 N2 N3 W|first k es t W].
  - left. auto.
  - right. assert (T : t <> []) by (destruct W as [| ? ? bb ? ? [_ [[-> _]|[-> _]]] | ? ? ? xx ? ? ? [_ [[-> _]|[-> _]]]|]; discriminate).
    destruct t as [|z t]; [congruence|].
    destruct O as [_ [[-> _]|[-> _]]]; cbn [app]; eexists _, _, _; (split; [reflexivity|discriminate]).
  - right. destruct O1 as [_ [[-> _]|[-> _]]]; cbn [app]; eexists _, _, _; (split; [reflexivity|discriminate]).
  - right. cbn [app]. eexists _, _, _; (split; [reflexivity|discriminate]).
Qed.
Lemma elems_end es t : writes_elems f false es t -> hd 0 t = 93 -> es = [] /\ t = [93].
Proof.
  intros H E. remember false as first eqn:Ef. destruct H as [|first c b es t O F N1 N2 W|first a b x y es t O1 O2 F N1 N2 N3 W|first k es t W]; subst.
  - auto.
  - exfalso. destruct O as [_ [[-> _]|[-> _]]]; cbn [app hd] in E; [|discriminate]. subst. specialize (F eq_refl). discriminate.
  - exfalso. destruct O1 as [_ [[-> _]|[-> _]]]; cbn [app hd] in E; [|discriminate]. subst. specialize (F eq_refl). discriminate.
  - discriminate.
Qed.

Lemma find_class k q : find (fun kn => starts (snd kn ++ [58; 93]) (bytes_of (class_name k) ++ 58 :: 93 :: q)) classes = Some (k, bytes_of (class_name k)).
Proof. destruct k; reflexivity. Qed.

Definition inv (x : N) (es : list elem) (ok ok' : bool) : Prop := ok' = true <-> ok = true \/ Exists (in_elem high f x) es.
Definition outcome (negate : bool) (x : N) (es : list elem) (p : text) (ok : bool) (r : option ranged) : Prop :=
  (pathname f = true /\ Exists slash_elem es /\ r = Some RNo) \/
  ((pathname f = true -> ~ Exists slash_elem es) /\
   exists ok', inv x es ok ok' /\ r = Some (if Bool.eqb ok' negate then RNo else RYes p)).

Lemma read_one c b t : writes_one f c b ->
  (let '(c0, q) := next (b ++ t) in if (c0 =? 92) && escape f then next q else (c0, q)) = (c, t) /\ c <> 0.
Proof.
  intros [C0 [[-> N1]|[-> E]]]; cbn [app next]; (split; [|exact C0]).
  - destruct (N.eqb_spec c 92) as [->|]; [|reflexivity]. destruct (escape f); [|reflexivity]. exfalso. apply N1. auto.
  - rewrite E. reflexivity.
Qed.

(** What one turn does, once an element has been read. *)
Lemma outcome_next negate x e es p ok ok1 r :
  (pathname f = true -> ~ slash_elem e) -> (ok1 = true <-> ok = true \/ in_elem high f x e) ->
  outcome negate x es p ok1 r -> outcome negate x (e :: es) p ok r.
Proof.
  intros NS K [(P & X & ->)|(NX & ok' & I & ->)].
  - left. split; [exact P|]. split; [right; exact X|reflexivity].
  - right. split.
    + intros P X. inversion X; subst; [exact (NS P H0)|exact (NX P H0)].
    + exists ok'. split; [|reflexivity]. unfold inv in *. rewrite I, K, Exists_cons. tauto.
Qed.

Lemma turn_end negate x es t p ok (fuel : nat) :
  writes_elems f false es t -> (length (t ++ p) <= fuel)%nat ->
  (forall fuel c q, next (t ++ p) = (c, q) -> (length q < fuel)%nat -> es <> [] ->
     outcome negate x es p ok (range_loop high fuel f negate x c q ok)) ->
  outcome negate x es p ok
    (let '(c, q) := next (t ++ p) in if c =? 93 then Some (if Bool.eqb ok negate then RNo else RYes q) else range_loop high fuel f negate x c q ok).
Proof.
  intros W L IH. destruct (elems_shape _ _ _ W) as [(-> & ->)|(a & b & r & -> & NE)].
  - cbn [app next]. change (93 =? 93) with true. cbv iota. right. split; [intros _ X; inversion X|].
    exists ok. split; [|reflexivity]. unfold inv. rewrite Exists_nil. tauto.
  - cbn [app next] in *. destruct (N.eqb_spec a 93) as [->|NA].
    + destruct (elems_end _ _ W eq_refl) as [E _]. congruence.
    + apply IH; [reflexivity| |exact NE]. cbn [length] in L |- *. lia.
Qed.

Lemma range_loop_ok negate x first es t p : writes_elems f first es t -> es <> [] ->
  forall fuel ok c q, next (t ++ p) = (c, q) -> (length q < fuel)%nat ->
  outcome negate x es p ok (range_loop high fuel f negate x c q ok).
Proof.
  intro W. induction W as [|first c b es t O F N1 N2 W IH|first a b x0 y es t O1 O2 F N1 N2 N3 W IH|first k es t W IH];
    intros NE fuel ok c0 q Q L; [congruence| | |].
  - destruct fuel as [|fuel]; [lia|]. cbn [range_loop].
    destruct (read_one c b (t ++ p) O) as [R C0]. rewrite <- app_assoc in Q. rewrite Q in R. cbv iota beta in R.
    assert (LQ : (length (t ++ p) <= fuel)%nat).
    { destruct O as [_ [[-> _]|[-> _]]]; cbn [app next] in Q; injection Q as <- <-; cbn [length] in L; lia. }
    rewrite R. cbv iota beta. rewrite (proj2 (N.eqb_neq c 0) C0).
    destruct ((c =? 47) && pathname f) eqn:SL.
    { left. apply andb_true_iff in SL as [S1 S2]. apply N.eqb_eq in S1. split; [exact S2|]. split; [left; exact S1|reflexivity]. }
    assert (RP : range_part f x c (t ++ p) ok = Some (c, t ++ p, ok)).
    { destruct (elems_shape _ _ _ W) as [(-> & _)|(a1 & b1 & r1 & -> & _)]; cbn [app range_part].
      - destruct p; reflexivity.
      - cbn [hd tl] in N2. destruct (N.eqb_spec a1 45); [|reflexivity]. destruct (N.eqb_spec b1 93); [reflexivity|]. exfalso. apply N2. auto. }
    rewrite RP. cbv iota beta.
    assert (CP : class_part high f x c (t ++ p) ok = (t ++ p, ok || (c =? x))).
    { unfold class_part. destruct (t ++ p) as [|d r] eqn:T; [reflexivity|].
      destruct ((c =? 91) && (d =? 58)) eqn:B; [|reflexivity]. exfalso. apply N1. apply andb_true_iff in B as [B1 B2].
      apply N.eqb_eq in B1, B2. split; [exact B1|].
      destruct (elems_shape _ _ _ W) as [(-> & _)|(a1 & b1 & r1 & -> & _)]; cbn [app] in T; injection T as <- _; exact B2. }
    rewrite CP. cbv iota beta.
    apply (outcome_next negate x (One c) es p ok (ok || (c =? x))).
    + cbn [slash_elem]. intros P ->. rewrite P in SL. discriminate.
    + cbn [in_elem]. rewrite orb_true_iff, N.eqb_eq. reflexivity.
    + apply turn_end; [exact W|exact LQ|]. intros fuel1 c1 q1 Q1 L1 NE1. exact (IH NE1 fuel1 _ c1 q1 Q1 L1).
  - destruct fuel as [|fuel]; [lia|]. cbn [range_loop].
    rewrite <- app_assoc in Q. cbn [app] in Q. rewrite <- app_assoc in Q.
    destruct (read_one a x0 (45 :: y ++ t ++ p) O1) as [R C0]. rewrite Q in R. cbv iota beta in R.
    assert (LQ : (length (45%N :: y ++ t ++ p) <= fuel)%nat).
    { destruct O1 as [_ [[-> _]|[-> _]]]; cbn [app next] in Q; injection Q as <- <-; cbn [length] in *; lia. }
    rewrite R. cbv iota beta. rewrite (proj2 (N.eqb_neq a 0) C0).
    destruct ((a =? 47) && pathname f) eqn:SL.
    { left. apply andb_true_iff in SL as [S1 S2]. apply N.eqb_eq in S1. split; [exact S2|]. split; [left; exact S1|reflexivity]. }
    destruct (read_one b y (t ++ p) O2) as [R2 C2].
    set (la := folded f a). set (lb := folded f b).
    assert (RP : exists lo hi, (lo = la /\ hi = lb \/ lo = lb /\ hi = la) /\ (schar lo <= schar hi)%Z /\
        range_part f x a (45 :: y ++ t ++ p) ok = Some (lo, t ++ p, ok || ((schar lo <=? schar x)%Z && (schar x <=? schar hi)%Z))).
    { assert (Y : exists y0 yr, y ++ t ++ p = y0 :: yr /\ y0 <> 93).
      { destruct O2 as [_ [[-> _]|[-> _]]]; cbn [app]; eexists _, _; (split; [reflexivity|]); congruence. }
      destruct Y as (y0 & yr & Y & Y93). rewrite Y in R2 |- *. cbn [next] in R2. cbv iota beta in R2.
      cbn [range_part]. change (45 =? 45) with true. rewrite (proj2 (N.eqb_neq y0 93) Y93). cbn [andb negb].
      rewrite R2. cbv iota beta. rewrite (proj2 (N.eqb_neq b 0) C2).
      change (if casefold f then to_lower a else a) with la. change (if casefold f then to_lower b else b) with lb.
      cbv zeta. destruct (Z.ltb_spec (schar lb) (schar la)); eexists _, _; (split; [|split; [|reflexivity]]); auto; lia. }
    destruct RP as (lo & hi & LH & LE & RP). rewrite RP. cbv iota beta.
    assert (NB : lo <> 91).
    { assert (forall z, z <> 91 -> folded f z <> 91) as FN.
      { intros z Z. unfold folded, lower_case. destruct (casefold f); [|exact Z]. destruct ((65 <=? z) && (z <=? 90)) eqn:B; lia. }
      destruct LH as [[-> _]|[-> _]]; apply FN; assumption. }
    assert (CP : forall ok, class_part high f x lo (t ++ p) ok = (t ++ p, ok || (lo =? x))).
    { intro ok0. unfold class_part. destruct (t ++ p) as [|d r]; [reflexivity|]. rewrite (proj2 (N.eqb_neq lo 91) NB). reflexivity. }
    rewrite CP. cbv iota beta.
    match goal with |- context [next (t ++ p)] => idtac end.
    apply (outcome_next negate x (Range a b) es p ok (ok || ((schar lo <=? schar x)%Z && (schar x <=? schar hi)%Z) || (lo =? x))).
    + cbn [slash_elem]. intros P ->. rewrite P in SL. discriminate.
    + cbn [in_elem]. fold la lb. unfold between. change signed with schar. rewrite !orb_true_iff, andb_true_iff, !Z.leb_le, N.eqb_eq.
      clear - LH LE. clearbody la lb. destruct LH as [[-> ->]|[-> ->]]; split; intro H.
      * destruct H as [[H|H]|H]; [left; exact H|right; left; lia|right; left; subst; lia].
      * destruct H as [H|[H|H]]; [left; left; exact H|left; right; lia|].
        left; right. lia.
      * destruct H as [[H|H]|H]; [left; exact H|right; right; lia|right; right; subst; lia].
      * destruct H as [H|[H|H]]; [left; left; exact H|left; right; lia|left; right; lia].
    + apply turn_end; [exact W| |].
      * cbn [length] in LQ. rewrite !app_length in *. lia.
      * intros fuel1 c1 q1 Q1 L1 NE1. exact (IH NE1 fuel1 _ c1 q1 Q1 L1).
  - destruct fuel as [|fuel]; [lia|]. cbn [range_loop].
    repeat rewrite <- app_assoc in Q. cbn [app next] in Q. injection Q as <- <-.
    change (91 =? 92) with false. change (91 =? 0) with false. change (91 =? 47) with false. cbn [andb].
    assert (RP : range_part f x 91 (58 :: bytes_of (class_name k) ++ 58 :: 93 :: t ++ p) ok =
                 Some (91, 58 :: bytes_of (class_name k) ++ 58 :: 93 :: t ++ p, ok)).
    { destruct k; reflexivity. }
    rewrite RP. cbv iota beta.
    set (v := match k with Cupper => if casefold f then to_upper x else x | _ => x end).
    assert (CP : class_part high f x 91 (58 :: bytes_of (class_name k) ++ 58 :: 93 :: t ++ p) ok = (t ++ p, ok || is_class high k v)).
    { unfold class_part. change (91 =? 91) with true. change (58 =? 58) with true.
      assert (PK : (peek (bytes_of (class_name k) ++ 58 :: 93 :: t ++ p) =? 0) = false) by (destruct k; reflexivity).
      assert (ST : starts [58; 93] (bytes_of (class_name k) ++ 58 :: 93 :: t ++ p) = false) by (destruct k; reflexivity).
      rewrite PK, ST. cbn [andb negb]. rewrite find_class. f_equal. destruct k; reflexivity. }
    rewrite CP. cbv iota beta.
    apply (outcome_next negate x (Class k) es p ok (ok || is_class high k v)).
    + cbn [slash_elem]. tauto.
    + cbn [in_elem]. rewrite orb_true_iff, class_iff. unfold v. change to_upper with upper_case. destruct k; reflexivity.
    + apply turn_end; [exact W| |].
      * cbn [length] in L. rewrite !app_length in *. cbn [length] in L. rewrite app_length in L. lia.
      * intros fuel1 c1 q1 Q1 L1 NE1. exact (IH NE1 fuel1 _ c1 q1 Q1 L1).
Qed.

Lemma elems_first es t : writes_elems f true es t -> es <> [].
Proof. intro H. inversion H; subst; discriminate. Qed.

Theorem rangematch_ok neg es b p d : writes_set f neg es b ->
  (in_set high f neg es d /\ rangematch high f (b ++ p) d = Some (RYes p)) \/
  (~ in_set high f neg es d /\ rangematch high f (b ++ p) d = Some RNo).
Proof.
  intro W. unfold rangematch. cbv zeta.
  set (x := if is_slash f d then 47 else if casefold f then to_lower d else d).
  assert (X : forall y, seen f d y <-> y = x).
  { intro y. unfold seen, x. rewrite <- slash_iff. change to_lower with lower_case. destruct (is_slash f d); split; intro H.
    - destruct H as [[_ H]|[H _]]; [exact H|congruence].
    - left. auto.
    - destruct H as [[H _]|[_ H]]; [congruence|exact H].
    - right. split; [congruence|exact H]. }
  assert (K : exists t, writes_elems f true es t /\
     ((peek (b ++ p) =? 33) || (peek (b ++ p) =? 94)) = neg /\ (if neg then tl (b ++ p) else b ++ p) = t ++ p).
  { destruct neg; cbn [writes_set] in W.
    - destruct W as (c & t & -> & C & W). exists t. split; [exact W|]. split; [|reflexivity].
      unfold peek. cbn [app hd]. destruct C as [-> | ->]; reflexivity.
    - destruct W as (W & N1 & N2). exists b. split; [exact W|]. split; [|reflexivity].
      destruct (elems_shape _ _ _ W) as [(-> & _)|(a1 & b1 & r & -> & _)]; unfold peek; cbn [app hd] in *; [reflexivity|]. lia. }
  destruct K as (t & W' & -> & ->). destruct (next (t ++ p)) as [c q] eqn:Q.
  pose proof (range_loop_ok neg x true es t p W' (elems_first _ _ W') (S (S (length q))) false c q Q (Nat.lt_lt_succ_r _ _ (Nat.lt_succ_diag_r _))) as O.
  destruct O as [(P & S1 & ->)|(NS & ok' & I & ->)].
  - right. split; [|reflexivity]. intros (y & _ & H & _). exact (H P S1).
  - unfold inv in I. assert (I' : ok' = true <-> Exists (in_elem high f x) es) by (rewrite I; split; [intros [H|H]; [discriminate|exact H]|auto]).
    destruct neg, ok'; cbn [Bool.eqb].
    + right. split; [|reflexivity]. intros (y & Y & _ & H). apply X in Y. subst y. apply H. apply I'. reflexivity.
    + left. split; [|reflexivity]. exists x. split; [apply X; reflexivity|]. split; [exact NS|]. intro H. apply I' in H. discriminate.
    + left. split; [|reflexivity]. exists x. split; [apply X; reflexivity|]. split; [exact NS|]. apply I'. reflexivity.
    + right. split; [|reflexivity]. intros (y & Y & _ & H). apply X in Y. subst y. apply I' in H. discriminate.
Qed.
End Range.
