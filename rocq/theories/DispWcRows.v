(** Control characters and widths in wcwidth_iter. *)
From Verif Require Import Base UtfModel UtfSpec UtfProofs EscSpec WidthModel WidthProofs WcModel WcSpec WcProofs WcProperties DispModel DispSpec DispTerm DispWc DispRows.
Open Scope N_scope.

Section Wc.
Variable ce : bool.
Local Notation wcw := (mk_wcwidth ce 1).
Local Notation cls := (clusters ce wcw is_variant_selector is_possible_unqualified_half_width is_emoji).
Local Notation cl1 := (WcSpec.cluster ce wcw is_variant_selector is_possible_unqualified_half_width is_emoji).

Lemma wcw_le2 c : scalar c -> (wcw c <= 2)%Z.
Proof. intro H. assert (H0 : c <> 0) by (unfold scalar in H; lia). pose proof (c61_range ce c H0) as R. cbn [In] in R. destruct R as [R|[R|[R|[]]]]; lia. Qed.
Lemma wcw_ctl c : (wcw c < 0)%Z -> c < 32 \/ 127 <= c < 160.
Proof. intro H. apply (c61_control ce 1 c ltac:(lia)) in H. lia. Qed.
Lemma cluster_facts u r w e : cl1 u r w e -> Forall scalar u -> (w <= 2)%Z /\ ((w < 0)%Z -> exists c, u = [c] /\ (c < 32 \/ 127 <= c < 160)) /\ (hd 0 u = 10 -> (w < 0)%Z).
Proof.
  intros C S. assert (N10 : (wcw 10 < 0)%Z) by (destruct ce; vm_compute; reflexivity).
  destruct C as [c r Hc|a b r On Wa Ra Rb|c t r w On Wc Rc Sc T|c t r Wc P F S']; cbn [hd].
  - split; [lia|]. split; [intros _; exists c; split; [reflexivity|apply wcw_ctl; exact Hc]|]. intro; exact Hc.
  - split; [lia|]. split; [lia|]. intro; subst a. lia.
  - assert (Hs : scalar c) by (inversion S; assumption). pose proof (wcw_le2 c Hs). unfold widen. split; [destruct (_ || _); lia|]. split; [destruct (_ || _); lia|]. intro; subst c. lia.
  - assert (Hs : scalar c) by (inversion S; assumption). pose proof (wcw_le2 c Hs). unfold widen. split; [destruct (existsb _ _); lia|]. split; [destruct (existsb _ _); lia|]. intro; subst c. lia.
Qed.
Lemma cut_facts l : forall t : text, cls (map fst t) l -> Forall scalar (map fst t) ->
  Forall (fun g : DispModel.cluster => (snd g <= 2)%Z /\ ((snd g < 0)%Z -> exists c f, fst g = [(c, f)] /\ (c < 32 \/ 127 <= c < 160)) /\ (match fst g with (c, _) :: _ => c = 10 | [] => False end -> (snd g < 0)%Z)) (cut (sizes l) t).
Proof.
  induction l as [|[[u w] e] l IH]; intros t C F; [constructor|]. cbn [sizes map cut fst snd]. remember (map fst t) as mt eqn:Em. inversion C as [|u' r' w' e' l' C0 C' Eq]; subst u' w' e' l'. rewrite Em in Eq.
  assert (Ef : map fst (firstn (length u) t) = u) by (rewrite <- firstn_map; etransitivity; [apply f_equal; exact (eq_sym Eq)|]; apply firstn_app_l; reflexivity).
  assert (Es : map fst (skipn (length u) t) = r') by (rewrite <- skipn_map; etransitivity; [apply f_equal; exact (eq_sym Eq)|]; apply skipn_app_l; reflexivity).
  assert (F' : Forall scalar (u ++ r')) by (rewrite Eq, <- Em; exact F). clear F. rename F' into F. apply Forall_app in F as [Fu Fr]. constructor.
  - cbn [fst snd]. destruct (cluster_facts u r' w e C0 Fu) as (A & B & D). split; [exact A|]. split.
    + intro Hw. destruct (B Hw) as (c & Eu & Hc). rewrite Eu in Ef. cbn [length] in Ef. rewrite Eu. cbn [length]. destruct (firstn 1 t) as [|[c' f] [|? ?]]; cbn [map fst] in Ef; try discriminate. injection Ef as ->. exists c, f. split; [reflexivity|exact Hc].
    + intro Hh. apply D. destruct (firstn (length u) t) as [|[c f] r]; [destruct Hh|]. cbn [map fst] in Ef. rewrite <- Ef. exact Hh.
  - apply IH; rewrite Es; assumption.
Qed.
Lemma wc_facts t : okt scalar t ->
  Forall (fun g : DispModel.cluster => (snd g <= 2)%Z /\ ((snd g < 0)%Z -> exists c f, fst g = [(c, f)] /\ (c < 32 \/ 127 <= c < 160)) /\ (match fst g with (c, _) :: _ => c = 10 | [] => False end -> (snd g < 0)%Z)) (wc_gl ce t).
Proof.
  intro H. assert (F : Forall scalar (map fst t)) by (unfold okt in H; rewrite Forall_map; exact H). destruct (segs_some ce (map fst t) F) as (l & C & E). unfold wc_gl. rewrite E. apply cut_facts; assumption.
Qed.
(** what parse_layout asks for: there are no control characters of two bytes *)
Definition unicode_text : text -> Prop := okt scalar.
Definition no_c1 (t : text) : Prop := Forall (fun c : tch => fst c < 128 \/ 160 <= fst c) t.
Lemma wc_rows nls W t : unicode_text t -> no_c1 t -> (2 <= W)%nat ->
  Forall (fun g : DispModel.cluster => fst g <> [] /\ (newline nls g = true \/ (snd g < 0)%Z -> blen (fst g) = 1%nat) /\ (newline nls g = false -> (0 <= snd g)%Z -> (1 <= Z.to_nat (snd g) <= W)%nat)) (wc_gl ce t).
Proof.
  intros H Hc HW. pose proof (wc_facts t H) as F. pose proof (it_ne _ _ _ (wc_iterates ce) t H) as Fn. pose proof (it_pos _ _ _ (wc_iterates ce) t H) as Fp. pose proof (it_concat _ _ _ (wc_iterates ce) t H) as Ec.
  apply Forall_forall. intros g Hg. rewrite Forall_forall in F, Fn, Fp. specialize (F g Hg). specialize (Fn g Hg). specialize (Fp g Hg). cbn beta in F. destruct F as (F1 & F2 & F3).
  split; [exact Fn|]. split.
  - intro Hn. assert (Hw : (snd g < 0)%Z). { destruct Hn as [Hn|Hn]; [|exact Hn]. apply F3. unfold newline in Hn. apply andb_true_iff in Hn as [_ Hn]. destruct (fst g) as [|[c f] r]; [discriminate|]. lia. }
    destruct (F2 Hw) as (c & f & Ef & Hr). rewrite Ef. cbn [blen fst]. assert (Hin : In (c, f) t). { rewrite <- Ec. apply in_concat. exists (fst g). split; [apply in_map; exact Hg|]. rewrite Ef. left. reflexivity. }
    unfold no_c1 in Hc. rewrite Forall_forall in Hc. specialize (Hc _ Hin). cbn [fst] in Hc. unfold ulen. replace (c <? 128) with true by lia. reflexivity.
  - intros _ Hz. unfold wid in Fp. destruct (snd g <? 0)%Z eqn:E; lia.
Qed.
Lemma wc_ctl t : unicode_text t -> Forall (fun g : DispModel.cluster => (snd g < 0)%Z -> exists c f, fst g = [(c, f)] /\ (c < 32 \/ 127 <= c)) (wc_gl ce t).
Proof. intro H. pose proof (wc_facts t H) as F. eapply Forall_impl; [|exact F]. intros g (_ & B & _) Hw. destruct (B Hw) as (c & f & E & Hc). exists c, f. split; [exact E|lia]. Qed.
End Wc.
