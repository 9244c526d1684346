(** Proofs about the expansion of abbreviated directories. *)
From Verif Require Import Base AbModel AbSpec.
Open Scope N_scope.

Section P.
Variable ls : text -> list entry.
Variable same : N -> N -> bool.
Variable cmp : N -> N -> bool.

Lemma begins_starts n : forall t, begins same n t = starts same n t.
Proof.
  unfold starts, pairwise. induction n as [|x n IH]; intros [|y t]; try reflexivity. cbn [begins]. rewrite IH. cbn [length combine forallb fst snd].
  change (S (length n) <=? S (length t))%nat with (length n <=? length t)%nat. destruct (same x y), (length n <=? length t)%nat; reflexivity.
Qed.
Lemma iequals_whole a b : iequals same a b = whole_name same b a.
Proof. unfold iequals, whole_name. rewrite begins_starts. unfold starts. destruct (length b =? length a)%nat eqn:E; rewrite (Nat.eqb_sym (length a)), E; [|reflexivity]. apply Nat.eqb_eq in E. rewrite E, Nat.leb_refl. reflexivity. Qed.
Lemma first_dir_filter l : match first_dir l with None => filter e_dir l = [] | Some (e, l') => filter e_dir l = e :: filter e_dir l' /\ exists a, l = a ++ e :: l' /\ e_dir e = true end.
Proof.
  induction l as [|e l IH]; [reflexivity|]. cbn [first_dir filter]. destruct (e_dir e) eqn:E; [split; [reflexivity|exists []; auto]|]. destruct (first_dir l) as [[e' l']|]; [|exact IH]. destruct IH as (A & a & B & C). split; [exact A|]. exists (e :: a). rewrite B. auto.
Qed.
Hypothesis Hfs : forall dir, Forall good_entry (ls dir).
Hypothesis Hc : good_chars same cmp.
Lemma found_ok dir n : found ls same dir n = filter (fun e => starts same n (e_name e)) (ls dir).
Proof.
  unfold found. apply filter_ext_in. intros e He. rewrite begins_starts. specialize (Hfs dir). rewrite Forall_forall in Hfs. destruct (Hfs e He) as (_ & _ & ->). apply orb_false_r.
Qed.
Lemma filter_filter {A} (f g : A -> bool) l : filter f (filter g l) = filter (fun x => f x && g x) l.
Proof. induction l as [|x l IH]; [reflexivity|]. cbn [filter]. destruct (g x) eqn:E; cbn [filter]; rewrite IH; [destruct (f x); reflexivity|rewrite andb_false_r; reflexivity]. Qed.
Lemma found_dirs dir n : filter e_dir (found ls same dir n) = candidates ls same dir n.
Proof. rewrite found_ok, filter_filter. reflexivity. Qed.
Lemma skip_found dir n : n <> [] -> n <> [46] -> skip_dots (found ls same dir n) = found ls same dir n.
Proof.
  intros H1 H2. rewrite found_ok. destruct (filter _ (ls dir)) as [|e l] eqn:E; [reflexivity|]. assert (X : In e (filter (fun e => starts same n (e_name e)) (ls dir))) by (rewrite E; left; reflexivity). apply filter_In in X. destruct X as [_ X]. unfold skip_dots.
  assert (Y : e_name e <> [46]); [|destruct (e_name e) as [|c [|c' t]]; [reflexivity| |destruct c as [|[ | |]]; try reflexivity; repeat (match goal with |- context [match ?p with _ => _ end] => destruct p end); reflexivity]].
  - intro Y. rewrite Y in X. unfold starts, pairwise in X. destruct n as [|x [|y n]]; [congruence| |cbn in X; discriminate]. cbn in X. rewrite andb_true_r in X. apply H2. f_equal. destruct Hc as (_ & D & _). exact (D x X).
  - destruct (N.eq_dec c 46) as [->|N]; [congruence|]. destruct c as [|p]; [reflexivity|]. destruct p as [p|p|]; try reflexivity. destruct p as [p|p|]; try reflexivity. destruct p as [p|p|]; try reflexivity. destruct p as [p|p|]; try reflexivity. destruct p as [p|p|]; try reflexivity. destruct p as [p|p|]; try reflexivity. congruence.
Qed.
(** ** what two texts have in common *)
Lemma lcd_refl t : lcd cmp t t = length t.
Proof. destruct Hc as (_ & _ & (R & _) & _). induction t as [|x t IH]; [reflexivity|]. cbn [lcd length]. rewrite R, IH. reflexivity. Qed.
Lemma lcd_le a : forall b, (lcd cmp a b <= length a /\ lcd cmp a b <= length b)%nat.
Proof. induction a as [|x a IH]; intros [|y b]; cbn; try lia. destruct (cmp x y); [|lia]. specialize (IH b). lia. Qed.
Lemma lcd_common a : forall b, common cmp (lcd cmp a b) a b.
Proof.
  intro b. destruct (lcd_le a b). split; [assumption|]. split; [assumption|]. clear. unfold pairwise. revert b. induction a as [|x a IH]; intros [|y b]; try reflexivity. cbn [lcd]. destruct (cmp x y) eqn:E; [|reflexivity]. cbn [firstn combine forallb fst snd]. rewrite E, IH. reflexivity.
Qed.
Lemma lcd_longest k : forall a b, common cmp k a b -> (k <= lcd cmp a b)%nat.
Proof.
  induction k as [|k IH]; intros [|x a] [|y b] (A & B & C); cbn in A, B; try lia. cbn [firstn] in C. unfold pairwise in C. cbn [combine forallb fst snd] in C. apply andb_prop in C. destruct C as [C1 C2]. cbn [lcd]. rewrite C1. apply le_n_S, IH. split; [lia|]. split; [lia|exact C2].
Qed.
Lemma pairwise_sym (eq : N -> N -> bool) a : (forall x y, eq x y = eq y x) -> forall b, pairwise eq a b = pairwise eq b a.
Proof. intro H. unfold pairwise. induction a as [|x a IH]; intros [|y b]; try reflexivity. cbn [combine forallb fst snd]. rewrite IH, H. reflexivity. Qed.
Lemma common_sym k a b : common cmp k a b -> common cmp k b a.
Proof. destruct Hc as (_ & _ & (_ & Sy & _) & _). intros (A & B & C). split; [exact B|]. split; [exact A|]. rewrite pairwise_sym; assumption. Qed.
Lemma common_trans k a b c : common cmp k a b -> common cmp k b c -> common cmp k a c.
Proof.
  destruct Hc as (_ & _ & (_ & _ & Tr) & _). intros (A & B & C) (D & E & F). split; [exact A|]. split; [exact E|]. clear -C F Tr A B E. revert a b c A B E C F. unfold pairwise. induction k as [|k IH]; intros a b c A B E C F; [reflexivity|]. destruct a as [|x a], b as [|y b], c as [|z c]; cbn in A, B, E; try lia. cbn [firstn combine forallb fst snd] in *. apply andb_prop in C. apply andb_prop in F. destruct C as [C1 C2], F as [F1 F2]. rewrite (Tr x y z C1 F1). cbn [andb]. apply (IH a b c); try lia; assumption.
Qed.
Lemma common_firstn k j a b : common cmp k a b -> (k <= j)%nat -> common cmp k (firstn j a) b.
Proof. intros (A & B & C) H. split; [rewrite firstn_length; lia|]. split; [exact B|]. rewrite firstn_firstn, Nat.min_l by exact H. exact C. Qed.
Lemma common_less k j a b : common cmp k a b -> (j <= k)%nat -> common cmp j a b.
Proof.
  intros (A & B & C) H. split; [lia|]. split; [lia|]. clear A B. revert j a b H C. unfold pairwise. induction k as [|k IH]; intros [|j] a b H C; try lia; try reflexivity. destruct a as [|x a], b as [|y b]; try reflexivity. cbn [firstn combine forallb fst snd] in *. apply andb_prop in C. destruct C as [C1 C2]. rewrite C1. cbn [andb]. apply IH; [lia|exact C2].
Qed.
Lemma common_of_firstn k j a b : common cmp k (firstn j a) b -> common cmp k a b.
Proof. intros (A & B & C). rewrite firstn_length in A. split; [lia|]. split; [exact B|]. rewrite firstn_firstn, Nat.min_l in C by lia. exact C. Qed.
Lemma common_self k a : (k <= length a)%nat -> common cmp k a a.
Proof. intro H. apply (common_less (length a)); [|exact H]. rewrite <- (lcd_refl a). apply lcd_common. Qed.
Lemma starts_common n t : starts cmp n t = true <-> common cmp (length n) n t.
Proof.
  unfold starts, common. rewrite firstn_all. split.
  - intro H. apply andb_prop in H. destruct H as [A B]. split; [lia|]. split; [lia|]. revert t A B. unfold pairwise. induction n as [|x n IH]; intros [|y t] A B; try reflexivity. cbn [length firstn combine forallb fst snd] in *. apply andb_prop in B. destruct B as [B1 B2]. rewrite B1. cbn [andb]. apply IH; [lia|exact B2].
  - intros (_ & A & B). apply andb_true_intro. split; [lia|]. revert t A B. unfold pairwise. induction n as [|x n IH]; intros [|y t] A B; try reflexivity. cbn [length firstn combine forallb fst snd] in *. apply andb_prop in B. destruct B as [B1 B2]. rewrite B1. cbn [andb]. apply IH; [lia|exact B2].
Qed.
Lemma same_cmp n t : starts same n t = true -> starts cmp n t = true.
Proof.
  destruct Hc as (_ & _ & _ & Sc). unfold starts, pairwise. intro H. apply andb_prop in H. destruct H as [A B]. rewrite A. cbn [andb]. rewrite forallb_forall in *. intros p Hp. apply Sc. exact (B p Hp).
Qed.
Lemma prefix_starts n t : is_prefix n t = true -> starts cmp n t = true.
Proof.
  destruct Hc as (_ & _ & (R & _) & _). unfold starts, pairwise. revert t. induction n as [|x n IH]; intros [|y t] H; try reflexivity; try discriminate. cbn [is_prefix] in H. apply andb_prop in H. destruct H as [A B]. apply N.eqb_eq in A. subst y. specialize (IH t B). apply andb_prop in IH. destruct IH as [I1 I2]. cbn [length combine forallb fst snd]. rewrite R, I2. cbn. exact (eq_trans (andb_true_r _) I1).
Qed.
(** ** one name *)
Lemma expand_none dir n : good_name n -> candidates ls same dir n = [] -> expand_name same cmp (found ls same dir n) n = None.
Proof.
  intros (G1 & _ & G3) H. unfold expand_name. rewrite skip_found by assumption. pose proof (first_dir_filter (found ls same dir n)) as F. destruct (first_dir _) as [[e l]|]; [|reflexivity]. rewrite found_dirs, H in F. destruct F as [F _]. discriminate F.
Qed.
Lemma candidate_good dir n e : In e (candidates ls same dir n) -> good_entry e /\ starts same n (e_name e) = true.
Proof. unfold candidates. intro H. apply filter_In in H. destruct H as [A B]. apply andb_prop in B. specialize (Hfs dir). rewrite Forall_forall in Hfs. split; [exact (Hfs e A)|exact (proj2 B)]. Qed.
Lemma nonempty_or n t : t <> [] -> match t with [] => n | _ => t end = (t : text).
Proof. destruct t; [congruence|reflexivity]. Qed.
Lemma expand_first dir n e l : good_name n -> candidates ls same dir n = e :: l -> whole_name same n (e_name e) = true \/ l = [] -> expand_name same cmp (found ls same dir n) n = Some (e_name e, true).
Proof.
  intros (G1 & _ & G3) H Ho. unfold expand_name. rewrite skip_found by assumption. pose proof (first_dir_filter (found ls same dir n)) as F. destruct (first_dir _) as [[e0 l0]|]; [|rewrite found_dirs, H in F; discriminate F].
  rewrite found_dirs, H in F. destruct F as [F _]. injection F as <- F. destruct (candidate_good dir n e) as [(Q & _) _]; [rewrite H; left; reflexivity|]. cbv zeta. rewrite iequals_whole. destruct (whole_name same n (e_name e)); [rewrite nonempty_or by exact Q; reflexivity|].
  destruct Ho as [Ho|Ho]; [discriminate|]. subst l. pose proof (first_dir_filter l0) as F2. destruct (first_dir l0) as [[e2 l2]|]; [destruct F2 as [F2 _]; congruence|]. destruct (is_prefix n (e_name e)); [rewrite lcd_refl, firstn_all|]; rewrite nonempty_or by exact Q; reflexivity.
Qed.
Lemma firstn_skipn_in (k : nat) (l : text) c : In c (firstn k l) -> In c l.
Proof. intro H. rewrite <- (firstn_skipn k l). apply in_or_app. left. exact H. Qed.
(** several: the text that the first two have in common *)
Definition extended (dir n t : text) : Prop :=
  Forall (fun c => is_sep c = false) t /\ starts cmp n t = true /\
  (forall e1 e2 l, candidates ls same dir n = e1 :: e2 :: l -> starts cmp t (e_name e1) = true /\ starts cmp t (e_name e2) = true /\
     ((forall e, In e (ls dir) -> starts same n (e_name e) = true -> e_dir e = true) -> l = [] -> forall k, common cmp k (e_name e1) (e_name e2) -> (k <= length t)%nat)).
Lemma expand_several dir n e1 e2 l : good_name n -> candidates ls same dir n = e1 :: e2 :: l -> whole_name same n (e_name e1) = false ->
  exists t, expand_name same cmp (found ls same dir n) n = Some (t, false) /\ extended dir n t.
Proof.
  intros (G1 & _ & G3) H Hw. unfold expand_name. rewrite skip_found by assumption. pose proof (first_dir_filter (found ls same dir n)) as F. destruct (first_dir (found ls same dir n)) as [[e0 l0]|]; [|rewrite found_dirs, H in F; discriminate F].
  rewrite found_dirs, H in F. destruct F as [F (a0 & Fa & _)]. injection F as <- F. cbv zeta. rewrite iequals_whole, Hw. pose proof (first_dir_filter l0) as F2. destruct (first_dir l0) as [[e2' l2]|]; [|congruence]. destruct F2 as [F2 (a2 & Fa2 & _)]. assert (E2 : e2' = e2) by congruence. assert (El : filter e_dir l2 = l) by congruence. subst e2'.
  set (best := match _ with Some b => Some b | None => _ end). set (w := firstn (lcd cmp (e_name e1) (e_name e2)) (e_name e1)).
  destruct (candidate_good dir n e1) as [(Q1 & _) S1]; [rewrite H; left; reflexivity|]. destruct (candidate_good dir n e2) as [(Q2 & _) S2]; [rewrite H; right; left; reflexivity|].
  apply same_cmp, starts_common in S1. apply same_cmp, starts_common in S2.
  assert (K : (length n <= lcd cmp (e_name e1) (e_name e2))%nat) by (apply lcd_longest; exact (common_trans _ _ _ _ (common_sym _ _ _ S1) S2)).
  assert (Lw : length w = lcd cmp (e_name e1) (e_name e2)) by (unfold w; rewrite firstn_length; destruct (lcd_le (e_name e1) (e_name e2)); lia).
  assert (W1 : common cmp (length w) w (e_name e1)) by (unfold w at 2; apply common_firstn; [apply common_self; rewrite Lw; apply lcd_le|lia]).
  assert (W2 : common cmp (length w) w (e_name e2)) by (unfold w at 2; apply common_firstn; [rewrite Lw; apply lcd_common|lia]).
  assert (Wn : common cmp (length n) w (e_name e1)) by (apply (common_less (length w)); [exact W1|lia]).
  set (t := match best with Some b => firstn (lcd cmp b w) b | None => w end).
  assert (Hb : forall b, best = Some b -> is_prefix n b = true).
  { unfold best. intros b. destruct (is_prefix n (e_name e1)) eqn:P1; [congruence|]. unfold best_of. destruct (find _ (e2 :: l2)) as [x|] eqn:Fx; [|discriminate]. intro X. assert (b = e_name x) by congruence. subst b. apply find_some in Fx. exact (proj2 Fx). }
  assert (T : common cmp (length n) n t /\ common cmp (length t) t w).
  { unfold t. destruct best as [b|].
    - pose proof (Hb b eq_refl) as P. apply prefix_starts, starts_common in P. assert (Kb : (length n <= lcd cmp b w)%nat) by (apply lcd_longest; apply (common_trans _ b n w); [apply common_sym; exact P|]; apply (common_trans _ n (e_name e1) w); [exact S1|apply common_sym; exact Wn]).
      pose proof (lcd_le b w) as [La Lb]. split; [apply common_sym, common_firstn; [apply common_sym; exact P|exact Kb]|]. rewrite firstn_length, Nat.min_l by exact La. apply common_firstn; [apply lcd_common|lia].
    - split; [apply common_sym; apply (common_trans _ w (e_name e1) n); [exact Wn|apply common_sym; exact S1]|apply common_self; lia]. }
  destruct T as [T1 T2]. assert (Lt : (length t <= length w)%nat) by apply T2. assert (Tn : t <> []). { intro X. rewrite X in T1. destruct T1 as (_ & T1 & _). destruct n; [congruence|cbn in T1; lia]. }
  assert (Hin : forall b, best = Some b -> exists x, In x (found ls same dir n) /\ b = e_name x).
  { intros b Eb. unfold best in Eb. destruct (is_prefix n (e_name e1)) eqn:P1; [exists e1; split; [rewrite Fa; apply in_elt|congruence]|]. unfold best_of in Eb. destruct (find _ (e2 :: l2)) as [x|] eqn:Fx; [|discriminate]. exists x. split; [|congruence]. apply find_some in Fx. destruct Fx as [Fx _]. rewrite Fa. apply in_or_app. right. right. rewrite Fa2. apply in_or_app. right. exact Fx. }
  assert (Hsep : forall x k, In x (found ls same dir n) -> Forall (fun c => is_sep c = false) (firstn k (e_name x))).
  { intros x k Hx. unfold found in Hx. apply filter_In in Hx. destruct Hx as [Hx _]. specialize (Hfs dir). rewrite Forall_forall in Hfs. destruct (Hfs x Hx) as (_ & X & _). rewrite Forall_forall in *. intros c Hi. apply X. apply (firstn_skipn_in k). exact Hi. }
  exists t. split; [fold t; rewrite nonempty_or by exact Tn; reflexivity|]. split; [unfold t; destruct best as [b|]; [destruct (Hin b eq_refl) as (x & Hx & ->); apply Hsep; exact Hx|apply Hsep; rewrite Fa; apply in_elt]|]. split; [apply starts_common; exact T1|]. intros e1' e2' l' H'. rewrite H in H'. assert (X1 : e1' = e1) by congruence. assert (X2 : e2' = e2) by congruence. assert (X3 : l' = l) by congruence. subst e1' e2' l'.
  split; [apply starts_common; apply (common_trans _ t w _ T2); apply (common_less (length w)); assumption|]. split; [apply starts_common; apply (common_trans _ t w _ T2); apply (common_less (length w)); assumption|].
  intros Hd Hl k Hk. rewrite Hl in El. assert (Hkl : (k <= length w)%nat) by (rewrite Lw; apply lcd_longest; exact Hk). apply (Nat.le_trans _ _ _ Hkl). unfold t. destruct best as [b|] eqn:Eb; [|lia].
  assert (B : b = e_name e1 \/ b = e_name e2).
  { unfold best in Eb. destruct (is_prefix n (e_name e1)) eqn:P1; [left; congruence|]. right. unfold best_of in Eb. destruct (find _ (e2 :: l2)) as [x|] eqn:Fx; [|discriminate]. assert (b = e_name x) by congruence. subst b. apply find_some in Fx. destruct Fx as [Fx Px].
    destruct Fx as [->|Fx]; [reflexivity|]. exfalso. assert (In x (found ls same dir n)). { rewrite Fa. apply in_or_app. right. right. rewrite Fa2. apply in_or_app. right. right. exact Fx. }
    rewrite found_ok in H0. apply filter_In in H0. destruct H0 as [A B]. specialize (Hd x A B). assert (Z : In x (filter e_dir l2)) by (apply filter_In; auto). rewrite El in Z. destruct Z. }
  assert (M : (length w <= lcd cmp b w)%nat) by (apply lcd_longest; apply common_sym; destruct B as [->| ->]; assumption). rewrite firstn_length. destruct (lcd_le b w). lia.
Qed.
End P.
