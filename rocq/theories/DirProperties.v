(** C62: the directory history and "cd -". *)
From Verif Require Import Base CmpModel PathModel CdModel CdSpec CdProofs CdProperties DirModel DirSpec.
Local Open Scope N_scope.

Notation "a ~~ b" := (same_letters a b) (at level 70).
Lemma sl_refl a : a ~~ a. Proof. reflexivity. Qed.
Lemma sl_sym a b : a ~~ b -> b ~~ a. Proof. unfold same_letters. congruence. Qed.
Lemma sl_trans a b c : a ~~ b -> b ~~ c -> a ~~ c. Proof. unfold same_letters. congruence. Qed.
Lemma sl_dec a b : {a ~~ b} + {~ a ~~ b}. Proof. unfold same_letters. apply (list_eq_dec N.eq_dec). Qed.

(** ** The last few of a list *)
Lemma skipn_twice {A} : forall a b (l : list A), skipn a (skipn b l) = skipn (b + a) l.
Proof. intros a b. induction b as [|b IH]; intro l; [reflexivity|]. destruct l; [destruct a; reflexivity|]. cbn [Nat.add skipn]. apply IH. Qed.
Lemma lastn_app {A} n (a b : list A) : lastn n (lastn n a ++ b) = lastn n (a ++ b).
Proof.
  unfold lastn. rewrite !app_length, skipn_length. destruct (Nat.le_gt_cases (length a) n) as [H|H].
  - replace (length a - n)%nat with O by lia. cbn [skipn]. f_equal. lia.
  - rewrite !skipn_app, !skipn_length, skipn_twice. f_equal; f_equal; lia.
Qed.
Lemma lastn_all {A} n (a : list A) : (length a <= n)%nat -> lastn n a = a.
Proof. intro H. unfold lastn. replace (length a - n)%nat with O by lia. reflexivity. Qed.
Lemma lastn_right {A} n (a b : list A) : length b = n -> lastn n (a ++ b) = b.
Proof.
  intro H. unfold lastn. rewrite app_length, skipn_app. replace (length a + length b - n)%nat with (length a) by lia. rewrite skipn_all, Nat.sub_diag. reflexivity.
Qed.
Lemma lastn_snoc {A} n (a : list A) x : lastn (S n) (a ++ [x]) = lastn n a ++ [x].
Proof.
  unfold lastn. rewrite app_length, skipn_app. cbn [length]. replace (length a + 1 - S n)%nat with (length a - n)%nat by lia. f_equal. replace (length a - n - length a)%nat with O by lia. reflexivity.
Qed.
Lemma lastn_split {A} n (a : list A) : exists old, a = old ++ lastn n a /\ (old = [] \/ length (lastn n a) = n).
Proof.
  exists (firstn (length a - n) a). split; [symmetry; apply firstn_skipn|]. destruct (Nat.le_gt_cases (length a) n) as [H|H].
  - left. replace (length a - n)%nat with O by lia. reflexivity.
  - right. unfold lastn. rewrite skipn_length. lia.
Qed.
Lemma lastn_length {A} n (a : list A) : (length (lastn n a) <= n)%nat.
Proof. unfold lastn. rewrite skipn_length. lia. Qed.
Lemma trim_ok : forall fuel h, (length h <= fuel)%nat -> trim fuel h = lastn 100 h.
Proof.
  induction fuel as [|fuel IH]; intros h H.
  - destruct h; [reflexivity|cbn [length] in H; lia].
  - cbn [trim]. change max_dir_history with 100%nat. destruct (Nat.ltb_spec 100 (length h)) as [L|L]; [|symmetry; apply lastn_all; exact L].
    destruct h as [|d h]; [cbn [length] in L; lia|]. cbn [tl]. cbn [length] in *. rewrite IH by lia. unfold lastn. cbn [length]. replace (S (length h) - 100)%nat with (S (length h - 100)) by lia. reflexivity.
Qed.

(** ** One step *)
Lemma erase_app c a b : erase c (a ++ b) = erase c a ++ erase c b.
Proof. induction a as [|d a IH]; [reflexivity|]. cbn [app erase]. rewrite IH. destruct (iequals d c); reflexivity. Qed.
Lemma erase_none c a : (forall d, In d a -> ~ d ~~ c) -> erase c a = a.
Proof.
  induction a as [|d a IH]; intro H; [reflexivity|]. cbn [erase]. destruct (iequals d c) eqn:I; [apply iequals_iff in I; destruct (H d (or_introl eq_refl) I)|].
  rewrite IH; [reflexivity|]. intros x X. apply H. right. exact X.
Qed.
Lemma erase_in c a d : In d (erase c a) <-> In d a /\ ~ d ~~ c.
Proof.
  induction a as [|x a IH]; [cbn; tauto|]. cbn [erase]. destruct (iequals x c) eqn:I.
  - apply iequals_iff in I. rewrite IH. split; [intros [? ?]; split; [right; assumption|assumption]|]. intros [[->|H] N]; [contradiction|auto].
  - assert (NX : ~ x ~~ c) by (intro X; apply iequals_iff in X; congruence). split.
    + intros [->|H]; [split; [left; reflexivity|exact NX]|]. apply IH in H. split; [right; tauto|tauto].
    + intros [[->|H] N]; [left; reflexivity|right; apply IH; auto].
Qed.
Lemma update_snoc m c h : exists h', update m c h = lastn 100 h' /\
  (h' = match m with erase_prev => erase c h | add => h end ++ [c] \/
   h' = h /\ m = add /\ exists g x, h = g ++ [x] /\ x ~~ c).
Proof.
  unfold update. cbv zeta. set (h1 := match m with erase_prev => erase c h | add => h end). destruct h1 as [|d r] eqn:H1.
  - exists [c]. split; [apply trim_ok, Nat.le_refl|]. left. reflexivity.
  - assert (NE : d :: r <> []) by discriminate. destruct (exists_last NE) as (g & x & E). cbv iota. rewrite E. rewrite last_last. destruct (iequals x c) eqn:I; cbn [negb].
    + apply iequals_iff in I. exists (g ++ [x]). split; [apply trim_ok, Nat.le_refl|]. unfold h1 in H1. destruct m.
      * right. split; [congruence|]. split; [reflexivity|]. exists g, x. split; [congruence|exact I].
      * exfalso. assert (X : In x (erase c h)) by (rewrite H1, E; apply in_or_app; right; left; reflexivity). apply erase_in in X as [_ X]. contradiction.
    + exists ((g ++ [x]) ++ [c]). split; [apply trim_ok, Nat.le_refl|]. left. reflexivity.
Qed.
Lemma update_new c h : (forall g x, h = g ++ [x] -> ~ x ~~ c) -> update add c h = lastn 100 (h ++ [c]).
Proof.
  intro H. destruct (update_snoc add c h) as (h' & -> & [->|(_ & _ & g & x & E & S)]); [reflexivity|]. destruct (H g x E S).
Qed.
Lemma update_same c g x : x ~~ c -> update add c (g ++ [x]) = lastn 100 (g ++ [x]).
Proof.
  intro S. unfold update. cbv zeta. rewrite last_last. rewrite (proj2 (iequals_iff x c) S). cbn [negb]. rewrite trim_ok by apply Nat.le_refl. destruct (g ++ [x]) eqn:E; [destruct g; discriminate|reflexivity].
Qed.
Lemma update_erase c h : update erase_prev c h = lastn 100 (erase c h ++ [c]).
Proof. destruct (update_snoc erase_prev c h) as (h' & -> & [->|(_ & E & _)]); [reflexivity|discriminate]. Qed.
Lemma prompts_snoc l m c : prompts (l ++ [(m, c)]) = update m c (prompts l).
Proof. unfold prompts. rewrite fold_left_app. reflexivity. Qed.

(** ** Mode add *)
Fixpoint arr (p : option text) (l : list text) : list text :=
  match l with [] => [] | c :: r => if differs p c then c :: arr (Some c) r else arr (Some c) r end.
Fixpoint lasto (p : option text) (l : list text) : option text := match l with [] => p | c :: r => lasto (Some c) r end.
Lemma arr_arrivals_aux l : forall p, map snd (filter (fun pc => differs (fst pc) (snd pc)) (combine (p :: map Some l) l)) = arr p l.
Proof.
  induction l as [|c l IH]; intro p; [reflexivity|]. specialize (IH (Some c)). change (combine (p :: map Some (c :: l)) (c :: l)) with ((p, c) :: combine (Some c :: map Some l) l). cbn [filter arr fst snd]. destruct (differs p c); [rewrite map_cons; cbn [snd]; f_equal|]; exact IH.
Qed.
Lemma arr_app : forall l p m, arr p (l ++ m) = arr p l ++ arr (lasto p l) m.
Proof. induction l as [|c l IH]; intros p m; [reflexivity|]. cbn [app arr lasto]. rewrite IH. destruct (differs p c); reflexivity. Qed.
Lemma lasto_snoc : forall l p c, lasto p (l ++ [c]) = Some c.
Proof. induction l as [|d l IH]; intros p c; [reflexivity|]. cbn [app lasto]. apply IH. Qed.
Lemma differs_some d c : differs (Some d) c = false <-> d ~~ c.
Proof. unfold differs. rewrite negb_false_iff. apply eqt_iff. Qed.
Lemma arr_last l c : exists g x, arr None (l ++ [c]) = g ++ [x] /\ x ~~ c.
Proof.
  revert c. induction l as [|d l IH] using rev_ind; intro c; [exists [], c; split; reflexivity|].
  rewrite arr_app, lasto_snoc. cbn [arr]. destruct (differs (Some d) c) eqn:D; [exists (arr None (l ++ [d])), c; split; [reflexivity|apply sl_refl]|].
  destruct (IH d) as (g & x & E & S). rewrite E, app_nil_r. exists g, x. split; [reflexivity|]. apply differs_some in D. exact (sl_trans _ _ _ S D).
Qed.
Theorem history_add cwds : prompts (map (pair add) cwds) = lastn 100 (arrivals cwds).
Proof.
  unfold arrivals. rewrite arr_arrivals_aux. induction cwds as [|c l IH] using rev_ind; [reflexivity|].
  rewrite map_app. cbn [map]. rewrite prompts_snoc, IH, arr_app. cbn [arr]. destruct l as [|d l _] using rev_ind; [apply update_new; intros [|? ?] x E; discriminate|].
  rewrite lasto_snoc. destruct (arr_last l d) as (g & x & E & S). rewrite E. destruct (differs (Some d) c) eqn:D.
  - rewrite update_new; [apply lastn_app|]. intros g2 x2 E2. rewrite (lastn_snoc 99) in E2. apply app_inj_tail in E2 as [_ <-]. intro X.
    assert (Y : d ~~ c) by exact (sl_trans _ _ _ (sl_sym _ _ S) X). apply differs_some in Y. congruence.
  - rewrite app_nil_r. apply differs_some in D. rewrite (lastn_snoc 99). rewrite update_same by exact (sl_trans _ _ _ S D). apply lastn_all. rewrite app_length. cbn [length]. pose proof (lastn_length 99 g). lia.
Qed.

(** ** Mode erase_prev *)
Ltac sx X := match goal with |- context [existsb ?f ?l] => destruct (existsb f l) eqn:X end.
Lemma latest_snoc l c : latest (l ++ [c]) = erase c (latest l) ++ [c].
Proof.
  induction l as [|d l IH]; [reflexivity|]. cbn [app latest]. rewrite existsb_app. cbn [existsb]. rewrite orb_false_r. change (eqt (map lowerN d) (map lowerN c)) with (iequals d c). rewrite IH. unfold text in *.
  destruct (existsb _ l); cbn [orb]; [reflexivity|]. cbn [erase]. destruct (iequals d c); reflexivity.
Qed.
Lemma latest_in l d : In d (latest l) -> In d l.
Proof. induction l as [|c l IH]; [auto|]. cbn [latest]. sx X; [right; auto|]. intros [->|H]; [left; reflexivity|right; auto]. Qed.
Lemma latest_nodup l : NoDup (map (map lowerN) (latest l)).
Proof.
  induction l as [|c l IH]; [apply NoDup_nil|]. cbn [latest]. sx X; [exact IH|]. cbn [map]. apply NoDup_cons; [|exact IH].
  intro I. apply in_map_iff in I as (d & E & I). apply latest_in in I. assert (Y : existsb (fun d => eqt (map lowerN c) (map lowerN d)) l = true) by (apply existsb_exists; exists d; split; [exact I|apply eqt_iff; congruence]). congruence.
Qed.
Lemma nodup_split (a : list text) d b : NoDup (map (map lowerN) (a ++ d :: b)) -> forall x, In x (a ++ b) -> ~ x ~~ d.
Proof.
  intros N x I S. rewrite map_app in N. cbn [map] in N. apply NoDup_remove_2 in N. apply N. rewrite <- map_app. apply in_map_iff. exists x. split; [exact S|exact I].
Qed.
Theorem history_erase cwds : prompts (map (pair erase_prev) cwds) = lastn 100 (latest cwds).
Proof.
  induction cwds as [|c l IH] using rev_ind; [reflexivity|]. rewrite map_app. cbn [map]. rewrite prompts_snoc, IH, update_erase, latest_snoc. clear IH.
  pose proof (latest_nodup l) as ND. set (L := latest l) in *. clearbody L. destruct (lastn_split 100 L) as (old & E & F). pose proof (lastn_length 100 L) as LL. set (new := lastn 100 L) in *. clearbody new.
  subst L. rewrite erase_app. destruct F as [->|F]; [reflexivity|]. rewrite <- app_assoc.
  destruct (existsb (fun d => iequals d c) new) eqn:X.
  - apply existsb_exists in X as (d & I & S). apply iequals_iff in S. apply in_split in I as (a & b & ->). rewrite app_assoc in ND.
    assert (NS : forall x, In x ((old ++ a) ++ b) -> ~ x ~~ c). { intros x I Y. apply (nodup_split (old ++ a) d b ND x I). exact (sl_trans _ _ _ Y (sl_sym _ _ S)). }
    assert (Q : length (erase c (a ++ d :: b) ++ [c]) = 100%nat).
    { rewrite erase_app. cbn [erase]. rewrite (proj2 (iequals_iff d c) S). rewrite (erase_none c a), (erase_none c b).
      - rewrite !app_length in *. cbn [length] in *. lia.
      - intros x I. apply NS. apply in_or_app. right. exact I.
      - intros x I. apply NS. apply in_or_app. left. apply in_or_app. right. exact I. }
    rewrite (lastn_right 100 (erase c old)) by exact Q. apply lastn_all. lia.
  - rewrite (erase_none c new). 2: { intros d I S. apply iequals_iff in S. assert (Y : existsb (fun d => iequals d c) new = true) by (apply existsb_exists; eauto). congruence. }
    rewrite app_assoc. rewrite <- (lastn_app 100 (erase c old ++ new)). rewrite (lastn_right 100 (erase c old) new F). reflexivity.
Qed.

(** ** Whatever the settings: "cd -" *)
Lemma bt_snoc l c d : before_that (l ++ [c]) d -> forall e, e ~~ c -> before_that ((l ++ [c]) ++ [e]) d.
Proof.
  intros B e S. inversion B as [l0 d0 run c0 NE F ND E]; subst. assert (X : c ~~ c0).
  { destruct (exists_last NE) as (r & y & ->). change (l0 ++ d :: r ++ [y]) with (l0 ++ (d :: r) ++ [y]) in E. rewrite app_assoc in E. apply app_inj_tail in E as [_ ->]. apply Forall_app in F as [_ F]. exact (Forall_inv F). }
  rewrite <- app_assoc. cbn [app]. apply (bt l0 d (run ++ [e]) c0); [destruct run; discriminate| |exact ND]. apply Forall_app. split; [exact F|]. apply Forall_cons; [exact (sl_trans _ _ _ S X)|apply Forall_nil].
Qed.
Definition second (l : list text) (g : list text) : Prop :=
  one_place l /\ g = [] \/ exists d g' y, before_that l d /\ g = g' ++ [y] /\ y ~~ d.
Definition good (l h : list text) : Prop :=
  l = [] /\ h = [] \/ exists l' c g x, l = l' ++ [c] /\ h = g ++ [x] /\ x ~~ c /\ second l g /\ (length h <= 100)%nat.
Lemma one_place_snoc l c e : one_place (l ++ [c]) -> e ~~ c -> one_place ((l ++ [c]) ++ [e]).
Proof.
  intros O S a b A B. assert (X : forall z, In z ((l ++ [c]) ++ [e]) -> z ~~ c).
  { intros z Z. apply in_app_or in Z as [Z|[<-|[]]]; [|exact S]. apply O; [exact Z|]. apply in_or_app. right. left. reflexivity. }
  exact (sl_trans _ _ _ (X a A) (sl_sym _ _ (X b B))).
Qed.
Lemma bt_differs l c d : before_that (l ++ [c]) d -> ~ d ~~ c.
Proof.
  intros B S. inversion B as [l0 d0 run c0 NE F ND E]; subst. destruct (exists_last NE) as (r & y & ->). change (l0 ++ d :: r ++ [y]) with (l0 ++ (d :: r) ++ [y]) in E. rewrite app_assoc in E. apply app_inj_tail in E as [_ ->].
  apply Forall_app in F as [_ F]. apply ND. exact (sl_trans _ _ _ S (Forall_inv F)).
Qed.
Lemma second_last (g : list text) : lastn 98 g = [] /\ g = [] \/ exists a y, g = a ++ [y] /\ lastn 98 g = lastn 97 a ++ [y].
Proof.
  destruct g as [|x0 g0 _] using rev_ind; [left; split; reflexivity|]. right. exists g0, x0. split; [reflexivity|]. apply (lastn_snoc 97).
Qed.
Lemma good_step l h m c : good l h -> good (l ++ [c]) (update m c h).
Proof.
  intros [[-> ->]|(l' & b & g & x & -> & -> & S & SE & LEN)].
  - right. exists [], c, [], c. split; [reflexivity|]. split; [destruct m; reflexivity|]. split; [apply sl_refl|]. split; [|destruct m; cbn; lia]. left. split; [|reflexivity]. intros p q [<-|[]] [<-|[]]. apply sl_refl.
  - destruct (sl_dec b c) as [BC|BC].
    + (* the same directory *)
      assert (XC : x ~~ c) by exact (sl_trans _ _ _ S BC). destruct m.
      * rewrite update_same by exact XC. rewrite lastn_all by exact LEN. right. exists (l' ++ [b]), c, g, x. split; [reflexivity|]. split; [reflexivity|]. split; [exact XC|]. split; [|exact LEN].
        destruct SE as [[O ->]|(d & g' & y & B & -> & Y)]; [left; split; [apply one_place_snoc; [exact O|apply sl_sym; exact BC]|reflexivity]|].
        right. exists d, g', y. split; [apply bt_snoc; [exact B|apply sl_sym; exact BC]|]. auto.
      * rewrite update_erase, erase_app. cbn [erase]. rewrite (proj2 (iequals_iff x c) XC), app_nil_r.
        assert (LE : (length (erase c g ++ [c]) <= 100)%nat).
        { rewrite app_length in *. cbn [length] in *. assert (Z : (length (erase c g) <= length g)%nat) by (clear; induction g as [|z g IH]; cbn [erase length]; [lia|destruct (iequals z c); cbn [length]; lia]). lia. }
        rewrite lastn_all by exact LE. right. exists (l' ++ [b]), c, (erase c g), c. split; [reflexivity|]. split; [reflexivity|]. split; [apply sl_refl|]. split; [|exact LE].
        destruct SE as [[O ->]|(d & g' & y & B & -> & Y)]; [left; split; [apply one_place_snoc; [exact O|apply sl_sym; exact BC]|reflexivity]|].
        right. exists d, (erase c g'), y. split; [apply bt_snoc; [exact B|apply sl_sym; exact BC]|]. split; [|exact Y]. rewrite erase_app. cbn [erase]. destruct (iequals y c) eqn:I; [|reflexivity].
        apply iequals_iff in I. exfalso. apply (bt_differs _ _ _ B). exact (sl_trans _ _ _ (sl_sym _ _ Y) (sl_trans _ _ _ I (sl_sym _ _ BC))).
    + (* another one *)
      assert (XC : ~ x ~~ c) by (intro X; apply BC; exact (sl_trans _ _ _ (sl_sym _ _ S) X)).
      assert (E : exists g2, update m c (g ++ [x]) = lastn 100 ((g2 ++ [x]) ++ [c])).
      { destruct m.
        - exists g. apply update_new. intros a y E. apply app_inj_tail in E as [_ <-]. exact XC.
        - exists (erase c g). rewrite update_erase, erase_app. cbn [erase]. destruct (iequals x c) eqn:I; [apply iequals_iff in I; contradiction|reflexivity]. }
      destruct E as (g2 & E). rewrite E, (lastn_snoc 99), (lastn_snoc 98). right. exists (l' ++ [b]), c, (lastn 98 g2 ++ [x]), c. split; [reflexivity|]. split; [reflexivity|]. split; [apply sl_refl|].
      split; [|rewrite !app_length; cbn [length]; pose proof (lastn_length 98 g2); lia]. right. exists b, (lastn 98 g2), x. split; [|split; [reflexivity|exact S]].
      rewrite <- app_assoc. cbn [app]. apply (bt l' b [c] c); [discriminate|apply Forall_cons; [apply sl_refl|apply Forall_nil]|exact BC].
Qed.
Lemma good_prompts l : good (map snd l) (prompts l).
Proof.
  induction l as [|[m c] l IH] using rev_ind; [left; split; reflexivity|]. rewrite prompts_snoc, map_app. cbn [map snd]. apply good_step. exact IH.
Qed.
(** "cd -" goes to the last directory prompted in that differs from the current one (its name as it was seen, letter case aside). *)
Theorem dash_goes_back l d cwd : before_that (map snd l) d -> exists y cmd, y ~~ d /\ cd_command cwd y cmd /\ prev_dir_history cwd (prompts l) = cmd.
Proof.
  intro B. assert (BD : forall l d e, before_that l d -> before_that l e -> d = e).
  { clear. intros l d e B1 B2. inversion B1 as [l1 d1 r1 c1 NE1 F1 ND1 E1]; inversion B2 as [l2 d2 r2 c2 NE2 F2 ND2 E2]; subst.
    assert (C : c1 ~~ c2). { destruct (exists_last NE1) as (a & y & ->). destruct (exists_last NE2) as (b & z & ->). change (l1 ++ d :: a ++ [y]) with (l1 ++ (d :: a) ++ [y]) in E2. change (l2 ++ e :: b ++ [z]) with (l2 ++ (e :: b) ++ [z]) in E2.
      rewrite !app_assoc in E2. apply app_inj_tail in E2 as [_ ->]. apply Forall_app in F1 as [_ F1]. apply Forall_app in F2 as [_ F2]. exact (sl_trans _ _ _ (sl_sym _ _ (Forall_inv F1)) (Forall_inv F2)). }
    clear NE1 NE2 B1 B2. apply (f_equal (@rev text)) in E2. rewrite !rev_app_distr in E2. cbn [rev] in E2. rewrite <- !app_assoc in E2. cbn [app] in E2. apply Forall_rev in F1. apply Forall_rev in F2. revert F1 F2 E2. generalize (rev r1) (rev r2). intros a. induction a as [|x a IH]; intros [|y b] F1 F2 E; cbn [app] in E.
    - injection E as E _. exact (eq_sym E).
    - injection E as -> _. exfalso. apply ND1. exact (sl_trans _ _ _ (Forall_inv F2) (sl_sym _ _ C)).
    - injection E as -> _. exfalso. apply ND2. exact (sl_trans _ _ _ (Forall_inv F1) C).
    - injection E as _ E. exact (IH b (Forall_inv_tail F1) (Forall_inv_tail F2) E). }
  destruct (good_prompts l) as [[E _]|(l' & c & g & x & E & H & S & SE & _)].
  - rewrite E in B. inversion B as [l0 d0 run c0 NE F ND E']. destruct l0; discriminate.
  - destruct SE as [[O _]|(e & g' & y & B' & -> & Y)].
    + exfalso. inversion B as [l0 d0 run c0 NE F ND E']; subst. destruct run as [|r run]; [congruence|]. apply ND. apply sl_trans with r; [|exact (Forall_inv F)]. apply O; rewrite <- E'; apply in_or_app; right; [left|right; left]; reflexivity.
    + rewrite (BD _ _ _ B' B) in Y. rewrite H. exists y, (make_cd_command cwd y). split; [exact Y|]. split; [apply cd_command_iff; reflexivity|].
      unfold prev_dir_history. rewrite !app_length. cbn [length]. replace (length g' + 1 + 1 <? 2)%nat with false by lia. rewrite !rev_app_distr. reflexivity.
Qed.
(** Without such a directory the line becomes empty. *)
Theorem dash_goes_nowhere l cwd : one_place (map snd l) -> prev_dir_history cwd (prompts l) = [].
Proof.
  intro O. destruct (good_prompts l) as [[_ ->]|(l' & c & g & x & E & -> & S & SE & _)]; [reflexivity|]. destruct SE as [[_ ->]|(d & g' & y & B & _ & _)]; [reflexivity|].
  exfalso. inversion B as [l0 d0 run c0 NE F ND E']; subst. destruct run as [|r run]; [congruence|]. apply ND. apply sl_trans with r; [|exact (Forall_inv F)]. apply O; rewrite <- E'; apply in_or_app; right; [left|right; left]; reflexivity.
Qed.
(** "cd -" again and again goes to and fro. *)
Theorem dash_toggles l d e m cwd : before_that (map snd l) d -> In e (map snd l) -> (forall l' c, map snd l = l' ++ [c] -> e ~~ c) ->
  exists y cmd, y ~~ e /\ cd_command cwd y cmd /\ prev_dir_history cwd (prompts (l ++ [(m, d)])) = cmd.
Proof.
  intros B I L. destruct (exists_last (l := map snd l)) as (l' & c & E); [destruct (map snd l); [destruct I|discriminate]|]. specialize (L l' c E).
  destruct (dash_goes_back (l ++ [(m, d)]) c cwd) as (y & cmd & Y & C & P).
  - rewrite map_app, E. cbn [map snd]. rewrite <- app_assoc. cbn [app]. apply (bt l' c [d] d); [discriminate|apply Forall_cons; [apply sl_refl|apply Forall_nil]|]. rewrite E in B. intro X. exact (bt_differs _ _ _ B (sl_sym _ _ X)).
  - exists y, cmd. split; [exact (sl_trans _ _ _ Y (sl_sym _ _ L))|]. auto.
Qed.

(** ** Removals *)
Theorem remove_exact : (forall a d b, remove_dir (a ++ d :: b) (Z.of_nat (length a)) = (true, a ++ b)) /\
  (forall h i, (i < 0 \/ Z.of_nat (length h) <= i)%Z -> remove_dir h i = (false, h)).
Proof.
  split.
  - induction a as [|x a IH]; intros d b; [reflexivity|]. cbn [app length remove_dir]. replace (Z.of_nat (S (length a)) =? 0)%Z with false by lia.
    replace (Z.of_nat (S (length a)) - 1)%Z with (Z.of_nat (length a)) by lia. rewrite IH. reflexivity.
  - induction h as [|d h IH]; intros i L; [reflexivity|]. cbn [length remove_dir] in *. replace (i =? 0)%Z with false by lia. rewrite IH by lia. reflexivity.
Qed.
(** Whatever happens, there are at most 100 entries and all of them were seen. *)
Theorem history_bounded l : let h := fold_left happen l [] in
  (length h <= 100)%nat /\ forall d, In d h -> exists m, In (prompt m d) l.
Proof.
  cbv zeta. induction l as [|e l (L & I)] using rev_ind; [split; [cbn; lia|intros d []]|]. rewrite fold_left_app. cbn [fold_left]. set (h := fold_left happen l []) in *. clearbody h.
  assert (OLD : forall d, In d h -> exists m, In (prompt m d) (l ++ [e])). { intros d D. destruct (I d D) as (m & M). exists m. apply in_or_app. left. exact M. }
  destruct e as [m c|i]; cbn [happen].
  - destruct (update_snoc m c h) as (h' & -> & C). split; [apply lastn_length|]. intros d D. assert (D' : In d h'). { destruct (lastn_split 100 h') as (old & E & _). rewrite E. apply in_or_app. right. exact D. }
    destruct C as [->|(-> & _ & _)]; [|apply OLD; exact D']. apply in_app_or in D' as [D'|[<-|[]]].
    + apply OLD. destruct m; [exact D'|]. apply erase_in in D'. tauto.
    + exists m. apply in_or_app. right. left. reflexivity.
  - destruct remove_exact as [RY RN]. destruct (Z_lt_dec i 0) as [N|P]; [rewrite RN by lia; cbn [snd]; auto|]. destruct (Z_lt_dec i (Z.of_nat (length h))) as [Q|Q]; [|rewrite RN by lia; cbn [snd]; auto].
    destruct (nth_error h (Z.to_nat i)) as [x|] eqn:NT; [|apply nth_error_None in NT; lia]. apply nth_error_split in NT as (a & b & -> & LA). replace (remove_dir (a ++ x :: b) i) with (true, a ++ b) by (replace i with (Z.of_nat (length a)) by lia; symmetry; apply RY). cbn [snd].
    rewrite !app_length in *. cbn [length] in *. split; [lia|]. intros d D. apply OLD. apply in_app_or in D as [D|D]; apply in_or_app; [left; exact D|right; right; exact D].
Qed.
(** After a removal two equal entries may meet: "cd -" then goes to the current directory, though another one was seen. *)
Theorem removed_refuted : exists a b cwd, ~ a ~~ b /\
  let h := fold_left happen [prompt add b; prompt add a; prompt add b; prompt add a; removal 2] [] in
  prev_dir_history cwd h = make_cd_command cwd a.
Proof. exists (tx "C:\a"), (tx "C:\b"), (tx "C:\a"). split; [discriminate|]. vm_compute. reflexivity. Qed.

Definition xs : list (dupe_mode * text) := map (fun s => (add, tx s)) ["C:\"; "D:\x"; "d:\X"; "C:\"; "E:\"; "e:\"]%string.
Example x_add : map snd xs = map tx ["C:\"; "D:\x"; "d:\X"; "C:\"; "E:\"; "e:\"]%string /\ prompts xs = map tx ["C:\"; "D:\x"; "C:\"; "E:\"]%string. Proof. vm_compute. auto. Qed.
Example x_erase : prompts (map (fun mc => (erase_prev, snd mc)) xs) = map tx ["d:\X"; "C:\"; "e:\"]%string. Proof. vm_compute. auto. Qed.
Example x_back : before_that (map snd xs) (tx "C:\") /\ prev_dir_history (tx "E:\") (prompts xs) = tx " C: & cd ""C:\""".
Proof.
  split; [|vm_compute; reflexivity]. apply (bt (map tx ["C:\"; "D:\x"; "d:\X"]%string) (tx "C:\") (map tx ["E:\"; "e:\"]%string) (tx "e:\")); [discriminate| |discriminate].
  apply Forall_cons; [reflexivity|]. apply Forall_cons; [reflexivity|apply Forall_nil].
Qed.
Example x_toggle : exists (l : list (dupe_mode * text)) d e, before_that (map snd l) d /\ In e (map snd l) /\ (forall l' c, map snd l = l' ++ [c] -> e ~~ c).
Proof.
  exists xs, (tx "C:\"), (tx "e:\"). split; [apply x_back|]. split; [vm_compute; tauto|]. intros l' c E. change (map snd xs) with (map tx ["C:\"; "D:\x"; "d:\X"; "C:\"; "E:\"]%string ++ [tx "e:\"]) in E. apply app_inj_tail in E as [_ <-]. apply sl_refl.
Qed.
Example x_nowhere : one_place (map snd [(add, tx "C:\"); (erase_prev, tx "c:\")]).
Proof. intros a b [<-|[<-|[]]] [<-|[<-|[]]]; reflexivity. Qed.

Print Assumptions history_add.
Print Assumptions history_erase.
Print Assumptions dash_goes_back.
Print Assumptions dash_goes_nowhere.
Print Assumptions dash_toggles.
Print Assumptions remove_exact.
Print Assumptions history_bounded.
Print Assumptions removed_refuted.
