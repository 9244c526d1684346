(** Proofs about the match list: what is put down, what done_building does, and the keys of the order. *)
From Verif Require Import Base CmpModel PathModel PathProofs MlModel MlSpec MlProofs MlPipeProofs MlRunProofs.
Local Open Scope N_scope.

Lemma ends_iff m : ends_with_sep m = true <-> ends_sep m.
Proof.
  unfold ends_with_sep, ends_sep. destruct m as [|x m]; [split; [discriminate|intros (a & c & E & _); destruct a; discriminate]|].
  rewrite sep_iff. split.
  - intro H. exists (removelast (x :: m)), (last (x :: m) 0). split; [apply app_removelast_last; discriminate|exact H].
  - intros (a & c & E & H). rewrite E, last_last. exact H.
Qed.
Lemma ends_false m : ends_with_sep m = false <-> ~ ends_sep m.
Proof. rewrite <- ends_iff. destruct (ends_with_sep m); split; congruence. Qed.
Lemma plain_iff t : is_type t T_NONE && negb (from_history t) = true <-> plain_none t.
Proof. unfold plain_none, is_type. rewrite andb_true_iff, N.eqb_eq, negb_true_iff. reflexivity. Qed.
Lemma plain_false t : is_type t T_NONE && negb (from_history t) = false <-> ~ plain_none t.
Proof. rewrite <- plain_iff. destruct (is_type t T_NONE && negb (from_history t)); split; congruence. Qed.

(** ** add_text *)
Lemma translates_map c m : translates c m (normalise_separators m c).
Proof.
  unfold normalise_separators. induction m as [|x m IH]; cbn [map]; [constructor|]. destruct (is_separator x) eqn:E.
  - apply L_sep; [apply sep_iff; exact E|exact IH].
  - apply L_other; [apply sep_false; exact E|exact IH].
Qed.
Lemma dir_bits t : base (N.lor (N.ldiff t 7) T_DIR) = T_DIR /\ forall i, 3 <= i -> N.testbit (N.lor (N.ldiff t 7) T_DIR) i = N.testbit t i.
Proof.
  assert (H7 : forall i, N.testbit 7 i = (i <? 3)).
  { intro i. change 7 with (N.ones 3). destruct (N.ltb_spec i 3); [apply N.ones_spec_low|apply N.ones_spec_high]; assumption. }
  split.
  - unfold base, T_DIR. apply N.bits_inj. intro i. rewrite N.land_spec, N.lor_spec, N.ldiff_spec, H7. destruct (i <? 3), (N.testbit t i); reflexivity.
  - intros i L. unfold T_DIR. rewrite N.lor_spec, N.ldiff_spec, H7. replace (i <? 3) with false by (symmetry; apply N.ltb_ge; exact L). rewrite orb_false_r, andb_true_r. reflexivity.
Qed.
Section Stored.
Variable walpha : N -> bool.
Lemma append_nothing m : m <> [] -> ~ ends_sep m -> ~ In 0 m ->
  append walpha m [] = m ++ [92] \/ (append walpha m [] = m /\ exists a d, m = a ++ [d; 58] /\ walpha d = true).
Proof.
  intros NE NS NZ. unfold append. assert (IR : is_rooted walpha [] = false) by (unfold is_rooted; vm_compute; destruct (walpha 0); reflexivity). rewrite IR. clear IR. destruct m as [|x m']; [congruence|]. set (m := x :: m') in *.
  assert (SA : sep_at m (length m - 1) = false).
  { apply ends_false in NS. unfold ends_with_sep in NS. unfold m in NS. fold m in NS. unfold sep_at, at_.
    rewrite <- NS. f_equal. symmetry. clear.  subst m. generalize dependent x. induction m' as [|y m' IH]; intro x; [reflexivity|].
    change (last (x :: y :: m') 0) with (last (y :: m') 0). replace (length (x :: y :: m') - 1)%nat with (S (length (y :: m') - 1)) by (cbn [length]; lia). cbn [nth]. apply IH. }
  rewrite SA. cbn [negb andb].
  change (sep_at [] 0) with false. cbn [negb]. rewrite andb_true_r.
  destruct (is_unc m) eqn:U; [left; rewrite app_nil_r; reflexivity|].
  cbv zeta. destruct (walpha (at_ (past_ssqs m) 0) && (at_ (past_ssqs m) 1 =? 58) && (at_ (past_ssqs m) 2 =? 0)) eqn:D; cbn [negb app].
  - right. split; [apply app_nil_r|]. apply andb_true_iff in D as [D D3]. apply andb_true_iff in D as [D1 D2].
    apply N.eqb_eq in D2, D3. destruct (past_ssqs_suffix m) as [a E]. set (i := past_ssqs m) in *. exists a.
    assert (NZ' : ~ In 0 i) by (intro I; apply NZ; rewrite E; apply in_app_iff; right; exact I).
    destruct i as [|d [|e [|g i]]]; unfold at_ in D1, D2, D3; cbn [nth] in D1, D2, D3; try discriminate.
    + exists d. split; [|exact D1]. rewrite E, D2. reflexivity.
    + exfalso. apply NZ'. right; right; left. exact D3.
  - left. reflexivity.
Qed.
Lemma stored_ok md sp f dep ns o : text_of (fst o) <> [] -> ~ In 0 (text_of (fst o)) ->
  stored walpha md sp f o (final walpha (fresh md sp f dep ns) o).
Proof.
  destruct o as [[[m t] x] nm]. unfold stored, final, text_of, type_of. cbn [fst snd]. intros NE NZ. cbv zeta.
  unfold add_text. cbv zeta. set (t' := if ends_with_sep m && is_type t T_NONE && negb (from_history t) then N.lor (N.ldiff t 7) T_DIR else t).
  set (tr := (0 <? mode (fresh md sp f dep ns)) && ((1 <? mode (fresh md sp f dep ns)) || negb nm) && (is_type t' T_DIR || is_type t' T_FILE || (is_type t' T_NONE && sget (fcd (fresh md sp f dep ns)) && from_history t'))).
  assert (TR : tr = true <-> wants_translation md f t' nm).
  { unfold tr, wants_translation, is_type. cbn [fresh mode fcd]. rewrite !andb_true_iff, !orb_true_iff, !andb_true_iff, !N.eqb_eq, !N.ltb_lt, negb_true_iff. split.
    - intros [[A B] C]. split; [|tauto]. destruct (N.le_gt_cases 2 md); [left; assumption|right]. split; [lia|]. destruct B as [B|B]; [lia|exact B].
    - intros [A C]. split; [|tauto]. destruct A as [A|[A B]]; (split; [lia|]); [left; lia|right; exact B]. }
  cbn [fst snd]. split; [reflexivity|].
  assert (T1 : plain_none t /\ ends_sep m -> t' = N.lor (N.ldiff t 7) T_DIR).
  { intros [P E]. unfold t'. apply plain_iff in P. apply ends_iff in E. rewrite E. cbn [andb]. rewrite P. reflexivity. }
  assert (T2 : ~ (plain_none t /\ ends_sep m) -> t' = t).
  { intro X. unfold t'. destruct (ends_with_sep m) eqn:E; [|reflexivity]. cbn [andb]. destruct (is_type t T_NONE && negb (from_history t)) eqn:P; [|reflexivity].
    exfalso. apply X. split; [apply plain_iff; exact P|apply ends_iff; exact E]. }
  split; [intro X; rewrite (T1 X); apply dir_bits|]. split; [exact T2|].
  set (m' := if is_type t' T_DIR && negb (ends_with_sep m) then append walpha m [] else m).
  assert (Q : exists tail, m' = m ++ tail /\ (tail = [] \/ (tail = [92] /\ base t' = T_DIR /\ ~ ends_sep m)) /\
     (base t' = T_DIR -> ends_sep (m ++ tail) \/ exists a d, m = a ++ [d; 58] /\ walpha d = true)).
  { unfold m', is_type. destruct (N.eqb_spec (base t') T_DIR) as [D|D]; cbn [andb].
    - destruct (ends_with_sep m) eqn:E; cbn [negb].
      + exists []. rewrite app_nil_r. split; [reflexivity|]. split; [left; reflexivity|]. intros _. left. apply ends_iff. exact E.
      + apply ends_false in E. destruct (append_nothing m NE E NZ) as [A|[A B]]; rewrite A.
        * exists [92]. split; [reflexivity|]. split; [right; auto|]. intros _. left. exists m, 92. split; [reflexivity|right; reflexivity].
        * exists []. rewrite app_nil_r. split; [reflexivity|]. split; [left; reflexivity|]. intros _. right. exact B.
    - exists []. rewrite app_nil_r. split; [reflexivity|]. split; [left; reflexivity|]. intro; contradiction. }
  destruct Q as (tail & EM & Q1 & Q2). exists tail. split; [exact Q1|]. split; [exact Q2|]. rewrite <- EM. split.
  - intro W. apply TR in W. rewrite W. eexists. split; [|unfold translated; apply translates_map].
    cbn [fresh mode sep]. unfold chosen_sep.
    destruct md as [|[[p|p|]|[p|[p|p|]|]|]]; try (right; right; split; [split; [discriminate|discriminate]|reflexivity]); [|left; auto].
    destruct (N.eqb_spec sp 0) as [->|NS]; [right; right; split; [split; [discriminate|auto]|reflexivity]|right; left; auto].
  - intro W. destruct tr; [exfalso; apply W; apply TR; reflexivity|reflexivity].
Qed.
End Stored.

(** ** Keys of the order *)
Section Keys.
Variable walpha : N -> bool.
Variable compare : bool -> text -> text -> Z.
Lemma dir_iff m t x : dir_match m t = true <-> dir_item (m, t, x).
Proof.
  unfold dir_match, dir_item, text_of, type_of. cbn [fst snd]. unfold is_type at 1. destruct (N.eqb_spec (base t) T_DIR) as [D|D]; [split; auto|].
  destruct (is_type t T_NONE && negb (from_history t)) eqn:P.
  - replace (negb (is_type t T_NONE) || from_history t) with false by (destruct (is_type t T_NONE), (from_history t); cbn in *; congruence).
    rewrite ends_iff. apply plain_iff in P. split; [auto|]. intros [X|[_ X]]; [contradiction|exact X].
  - replace (negb (is_type t T_NONE) || from_history t) with true by (destruct (is_type t T_NONE), (from_history t); cbn in *; congruence).
    apply plain_false in P. split; [discriminate|]. intros [X|[X _]]; contradiction.
Qed.
Lemma dir_iff' e : dir_match (match_ e) (type_ e) = true <-> dir_item (item_of e).
Proof. apply dir_iff. Qed.
Lemma minuses_ok m : leading m (N.to_nat (minuses m)).
Proof.
  induction m as [|c m IH]; cbn [minuses]; [exists []; split; [reflexivity|discriminate]|].
  destruct (N.eqb_spec c 45) as [->|H]; [|exists (c :: m); split; [reflexivity|exact H]].
  destruct IH as (r & E & H). exists r. split; [|exact H]. rewrite N2Nat.inj_add. change (N.to_nat 1) with 1%nat. cbn [Nat.add repeat app]. f_equal. exact E.
Qed.
Definition named (e : info) : text := if dir_match (match_ e) (type_ e) then maybe_strip_last_separator walpha (match_ e) else match_ e.
Lemma named_ok e : name_of walpha (item_of e) (named e).
Proof.
  unfold named, name_of. rewrite <- dir_iff'. destruct (dir_match (match_ e) (type_ e)); split; intro H; try reflexivity; congruence.
Qed.
Definition dir_key (order : N) (a b : info) : Z :=
  if order =? 1 then 0%Z
  else if order =? 0 then (b2z (dir_match (match_ b) (type_ b)) - b2z (dir_match (match_ a) (type_ a)))%Z
  else (b2z (dir_match (match_ a) (type_ a)) - b2z (dir_match (match_ b) (type_ b)))%Z.
Definition minus_key (a b : info) : Z := (Z.of_N (minuses (named a)) - Z.of_N (minuses (named b)))%Z.
Definition type_keys : list (info -> info -> Z) :=
  map (fun k a b => (b2z (base (type_ a) =? k)%N - b2z (base (type_ b) =? k)%N)%Z) [T_DIR; T_ALIAS; T_CMD; T_WORD; T_ARG; T_FILE].
Definition keys (order : N) : list (info -> info -> Z) :=
  [dir_key order; minus_key; fun a b => compare true (named a) (named b); fun a b => compare false (named a) (named b)] ++ type_keys.
Lemma no_minus m : hd 0 m =? 45 = false -> minuses m = 0.
Proof. destruct m as [|c m]; [reflexivity|]. cbn [hd minuses]. intros ->. reflexivity. Qed.
Lemma less_keys order a b : less walpha compare order false a b = by_keys info (keys order) a b.
Proof.
  unfold less, sort_worker, by_keys, keys. cbv zeta. cbn [app map decide]. unfold dir_key.
  set (ld := dir_match (match_ a) (type_ a)). set (rd := dir_match (match_ b) (type_ b)).
  assert (MK : (if (hd 0 (named a) =? 45)%N || (hd 0 (named b) =? 45)%N then (Z.of_N (minuses (named a)) - Z.of_N (minuses (named b)))%Z else 0%Z) = minus_key a b).
  { unfold minus_key. destruct (hd 0 (named a) =? 45)%N eqn:E1; cbn [orb]; [reflexivity|]. destruct (hd 0 (named b) =? 45)%N eqn:E2; [reflexivity|].
    rewrite (no_minus _ E1), (no_minus _ E2). reflexivity. }
  change (if ld then maybe_strip_last_separator walpha (match_ a) else match_ a) with (named a).
  change (if rd then maybe_strip_last_separator walpha (match_ b) else match_ b) with (named b).
  rewrite MK.
  destruct (N.eqb_spec order 1) as [O1|O1]; cbn [negb andb]; [reflexivity|].
  destruct ld, rd; cbn [Bool.eqb negb b2z]; destruct (N.eqb_spec order 0) as [O0|O0]; try reflexivity.
Qed.
Lemma keys_pre order : (forall ic, comparison (compare ic)) -> Forall (preorder info) (keys order).
Proof.
  intro C. unfold keys, type_keys. cbn [app map].
  assert (Z1 : forall (g : info -> Z), preorder info (fun a b => (g a - g b)%Z)) by (intro g; split; intros; cbn beta in *; lia).
  assert (Z2 : forall ic, preorder info (fun a b => compare ic (named a) (named b))).
  { intro ic. destruct (C ic) as [S T]. split; intros; cbn beta in *; [apply S|eapply T; eassumption]. }
  repeat (apply Forall_cons; [|]); try apply Forall_nil; try apply Z2; try (apply (Z1 (fun e => b2z (base (type_ e) =? _)))).
  - unfold dir_key. destruct (order =? 1); [split; intros; lia|]. destruct (order =? 0).
    + destruct (Z1 (fun e => (- b2z (dir_match (match_ e) (type_ e)))%Z)) as [A B]. split.
      * intros x y. pose proof (A x y). cbn beta in *. lia.
      * intros x y z. pose proof (B x y z). cbn beta in *. lia.
    + apply (Z1 (fun e => b2z (dir_match (match_ e) (type_ e)))).
  - apply (Z1 (fun e => Z.of_N (minuses (named e)))).
Qed.
Lemma base_small t : base t < 8.
Proof. unfold base. change 7 with (N.ones 3). rewrite N.land_ones. apply N.mod_lt. discriminate. Qed.
Lemma type_rank a b : by_keys info type_keys b a = false -> (rank (type_ a) <= rank (type_ b))%nat.
Proof.
  unfold by_keys, type_keys, rank. cbn [map]. pose proof (base_small (type_ a)) as A. pose proof (base_small (type_ b)) as B.
  assert (EN : forall n, n < 8 -> n = 0 \/ n = 1 \/ n = 2 \/ n = 3 \/ n = 4 \/ n = 5 \/ n = 6 \/ n = 7) by (intros; lia).
  destruct (EN _ A) as [-> |[-> |[-> |[-> |[-> |[-> |[-> | ->]]]]]]]; destruct (EN _ B) as [-> |[-> |[-> |[-> |[-> |[-> |[-> | ->]]]]]]];
    vm_compute; intro H; try discriminate; repeat constructor.
Qed.
Lemma precede_ok order a b : (forall ic, comparison (compare ic)) -> less walpha compare order false b a = false ->
  may_precede walpha compare order (item_of a) (item_of b).
Proof.
  intros C L. pose proof (keys_pre order C) as K. rewrite less_keys in L. unfold by_keys, keys in L. rewrite map_app in L. cbn [map app decide] in L. unfold may_precede.
  assert (SYM : forall k : info -> info -> Z, preorder info k -> (k b a < 0 <-> k a b > 0)%Z /\ (k b a = 0 <-> k a b = 0)%Z /\ (k b a > 0 <-> k a b < 0)%Z).
  { intros k [S _]. pose proof (S a b). pose proof (S b a). lia. }
  unfold keys in K. cbn [app] in K.
  pose proof (Forall_inv K) as K1. apply Forall_inv_tail in K. pose proof (Forall_inv K) as K2. apply Forall_inv_tail in K.
  pose proof (Forall_inv K) as K3. apply Forall_inv_tail in K. pose proof (Forall_inv K) as K4. apply Forall_inv_tail in K.
  apply SYM in K1, K2, K3, K4. clear SYM. cbn beta in K3, K4.
  pose proof (dir_iff' a) as DA. pose proof (dir_iff' b) as DB. unfold dir_key in L, K1.
  set (da := dir_match (match_ a) (type_ a)) in *. set (db := dir_match (match_ b) (type_ b)) in *.
  assert (REST : (order = 1 \/ (dir_item (item_of a) <-> dir_item (item_of b))) ->
                 (if (minus_key b a =? 0)%Z then if (compare true (named b) (named a) =? 0)%Z then if (compare false (named b) (named a) =? 0)%Z
                    then decide (map (fun k => k b a) type_keys) else (compare false (named b) (named a) <? 0)%Z
                    else (compare true (named b) (named a) <? 0)%Z else (minus_key b a <? 0)%Z) = false ->
    exists mx my n m, name_of walpha (item_of a) mx /\ name_of walpha (item_of b) my /\ leading mx n /\ leading my m /\
     ((n < m)%nat \/ (n = m /\ ((compare true mx my < 0)%Z \/ (compare true mx my = 0%Z /\
       ((compare false mx my < 0)%Z \/ (compare false mx my = 0%Z /\ (rank (type_of (item_of a)) <= rank (type_of (item_of b)))%nat))))))).
  { intros _ R. exists (named a), (named b), (N.to_nat (minuses (named a))), (N.to_nat (minuses (named b))).
    split; [apply named_ok|]. split; [apply named_ok|]. split; [apply minuses_ok|]. split; [apply minuses_ok|].
    unfold minus_key in R, K2. destruct (Z.eqb_spec (Z.of_N (minuses (named b)) - Z.of_N (minuses (named a))) 0) as [M|M]; [|apply Z.ltb_ge in R; left; lia].
    right. split; [lia|]. destruct (Z.eqb_spec (compare true (named b) (named a)) 0) as [M1|M1]; [|apply Z.ltb_ge in R; left; apply K3; lia].
    right. split; [apply K3; exact M1|]. destruct (Z.eqb_spec (compare false (named b) (named a)) 0) as [M2|M2]; [|apply Z.ltb_ge in R; left; apply K4; lia].
    right. split; [apply K4; exact M2|]. apply type_rank. exact R. }
  destruct (N.eqb_spec order 1) as [O1|O1].
  - right; right. split; [left; exact O1|]. apply REST; [left; exact O1|exact L].
  - destruct (Bool.bool_dec da db) as [E|E].
    + right; right. assert (Q : dir_item (item_of a) <-> dir_item (item_of b)) by (rewrite <- DA, <- DB, E; reflexivity). split; [right; exact Q|]. apply REST; [right; exact Q|].
      rewrite E in L. replace (if order =? 0 then (b2z db - b2z db)%Z else (b2z db - b2z db)%Z) with 0%Z in L by (destruct (order =? 0); lia). exact L.
    + destruct (N.eqb_spec order 0) as [O0|O0].
      * left. split; [exact O0|]. destruct da, db; try congruence; [split; [apply DA; reflexivity|]; intro X; apply DB in X; discriminate|discriminate L].
      * right; left. split; [exact O0|]. split; [exact O1|]. destruct da, db; try congruence; [discriminate L|]. split; [intro X; apply DA in X; discriminate|apply DB; reflexivity].
Qed.
End Keys.
