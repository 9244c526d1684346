From Coq Require Import Permutation.
From Verif Require Import Base CoModel CoProofs CoLink.
Open Scope nat_scope.

(** ** processes only get more *)
Definition ext (s s' : st) : Prop := forall y p, nth_error (s_procs s) y = Some p -> exists p', nth_error (s_procs s') y = Some p' /\ p_stat p' = p_stat p /\ p_out p' = p_out p /\ p_cat p' = p_cat p.
Lemma ext_eq s s' : s_procs s' = s_procs s -> ext s s'.
Proof. intros E y p H. rewrite E. eauto. Qed.
Lemma ext_trans a b c : ext a b -> ext b c -> ext a c.
Proof. intros H K y p E. destruct (H y p E) as (p1 & A & B & C & D). destruct (K y p1 A) as (p2 & A2 & B2 & C2 & D2). exists p2. split; [exact A2|]. split; [congruence|]. split; congruence. Qed.
Lemma ext_start s c l : ext s (start s c l).
Proof.
  unfold start. destruct (find_entry (s_entries s) c) as [e|]; [|now apply ext_eq]. destruct (current s e); [|now apply ext_eq]. intros y p E. exists p. split; [|auto]. cbv zeta. unfold set_guard, change, set_cyg, set_entries, set_procs. cbn [s_procs].
  rewrite nth_error_app1; [exact E|]. apply nth_error_Some. congruence.
Qed.
Lemma ext_need s y : ext s (set_need s y).
Proof. intros i p E. unfold set_need. rewrite nth_change_proc, E. eexists. split; [reflexivity|]. destruct (i =? y); auto. Qed.
Lemma ext_end s c : ext s (end_guard s c).
Proof. apply ext_eq. unfold end_guard, change, set_entries. cbn [s_procs]. apply release_procs. Qed.
Lemma ext_exec l : forall s c, ext s (exec l s c).
Proof.
  induction l as [|[| |] l IH]; intros s c; cbn [exec].
  - now apply ext_eq.
  - destruct (busy _ _); [now apply ext_eq|apply ext_start].
  - destruct (file_of s c) as [y|]; [|apply IH]. cbv zeta. set (s1 := set_guard _ _ _ _). assert (X : ext s s1) by (unfold s1; exact (ext_need s y)). destruct (ready _ _); [|exact X]. apply (ext_trans _ _ _ X). eapply ext_trans; [apply ext_end|apply IH].
  - now apply ext_eq.
Qed.
Lemma ext_resume s c : ext s (resume s c).
Proof.
  unfold resume. destruct (find_entry (s_entries s) c) as [e|]; [|now apply ext_eq]. destruct (e_phase e) as [l|l|y l|y l|].
  - apply ext_exec.
  - destruct (e_canceled e); [exact (ext_exec l (change s c (with_queued false)) c)|]. destruct (busy _ _); [now apply ext_eq|exact (ext_start (change s c (with_queued false)) c l)].
  - destruct (ready _ _); [|now apply ext_eq]. eapply ext_trans; [apply (ext_end s c)|]. exact (ext_exec l (change (end_guard s c) c (with_file (Some y))) c).
  - destruct (ready _ _); [|now apply ext_eq]. eapply ext_trans; [apply ext_end|]. apply ext_exec.
  - now apply ext_eq.
Qed.
Lemma ext_resumes l : forall s, ext s (fold_left resume l s).
Proof. induction l as [|c l IH]; intros s; [now apply ext_eq|]. cbn [fold_left]. eapply ext_trans; [apply ext_resume|apply IH]. Qed.
Lemma procs_removes l : forall s, s_procs (fold_left remove_co l s) = s_procs s.
Proof. induction l as [|c l IH]; intros s; [reflexivity|]. cbn [fold_left]. rewrite IH. unfold remove_co, set_entries. cbn [s_procs]. apply release_procs. Qed.
Lemma ext_pass order s : ext s (pass order s).
Proof. unfold pass. cbv zeta. eapply ext_trans; [|apply ext_eq; apply procs_removes]. eapply ext_trans; [|apply ext_resumes]. apply ext_eq. unfold purge. apply procs_removes. Qed.

(** ** what a coroutine waits for has not exited *)
Definition waits (q : phase) (y : nat) : Prop := match q with Guard z _ | Closing z _ => z = y | _ => False end.
Definition exists_at (s : st) (y : nat) : Prop := exists p, nth_error (s_procs s) y = Some p.
Definition alive_at (s : st) (y : nat) : Prop := exists p, nth_error (s_procs s) y = Some p /\ p_stat p = false.
Definition of (s : st) (c : nat) (P : entry -> Prop) : Prop := forall e, find_entry (s_entries s) c = Some e -> P e.
Definition valid (s : st) (e : entry) : Prop := (forall y, e_file e = Some y -> exists_at s y) /\ (forall y, waits (e_phase e) y -> exists_at s y).
Definition good (s : st) (e : entry) : Prop := forall y, waits (e_phase e) y -> alive_at s y.
Record awk (s : st) : Prop := mkAwk { a_so : forall y p, nth_error (s_procs s) y = Some p -> p_stat p = true -> p_out p = true; a_val : forall c, of s c (valid s) }.
Lemma ext_exists s s' y : ext s s' -> exists_at s y -> exists_at s' y.
Proof. intros X [p E]. destruct (X y p E) as (p' & E' & _). now exists p'. Qed.
Lemma ext_alive s s' y : ext s s' -> alive_at s y -> alive_at s' y.
Proof. intros X (p & E & S). destruct (X y p E) as (p' & E' & S' & _). exists p'. split; [exact E'|congruence]. Qed.
Lemma ext_valid s s' e : ext s s' -> valid s e -> valid s' e.
Proof. intros X [A B]. split; intros y H; eapply ext_exists; eauto. Qed.
Lemma ext_good s s' e : ext s s' -> good s e -> good s' e.
Proof. intros X A y H. eapply ext_alive; eauto. Qed.
Lemma valid_core s e e' : core e = core e' -> valid s e -> valid s e'.
Proof. unfold core. intros E. injection E as _ _ _ _ P F. unfold valid. now rewrite P, F. Qed.
Lemma good_core s e e' : core e = core e' -> good s e -> good s e'.
Proof. unfold core. intros E. injection E as _ _ _ _ P F. unfold good. now rewrite P. Qed.
Lemma of_core s s' c (P : entry -> Prop) : core_of s' c = core_of s c -> (forall e e', core e = core e' -> P e -> P e') -> of s c P -> of s' c P.
Proof. unfold core_of, of. intros E X H e F. rewrite F in E. destruct (find_entry (s_entries s) c) as [e0|]; [|discriminate]. injection E as E. apply (X e0 e); [unfold core; congruence|now apply H]. Qed.
Lemma of_ext_valid s s' c : ext s s' -> of s c (valid s) -> of s c (valid s').
Proof. intros X H e E. apply (ext_valid s s' e X). now apply H. Qed.
Lemma awk_core s s' : s_procs s' = s_procs s -> (forall c, core_of s' c = core_of s c) -> awk s -> awk s'.
Proof. intros E C A. constructor; [rewrite E; apply (a_so _ A)|]. intros c. apply (of_core s s' c _ (C c)); [intros e e'; apply valid_core|]. apply of_ext_valid; [now apply ext_eq|apply (a_val _ A)]. Qed.
Lemma awk_change s c f : (forall e, e_id (f e) = e_id e) -> awk s -> (of s c (fun e => valid s (f e))) -> awk (change s c f).
Proof.
  intros F A V. constructor; [apply (a_so _ A)|]. intros d e. cbn [change set_entries s_entries]. rewrite find_upd by exact F. destruct (c =? d) eqn:E; [|intros X; now apply (a_val _ A d e)]. assert (c = d) as -> by lia. unfold of in V. destruct (find_entry (s_entries s) d) as [e0|]; [|discriminate]. intros X. injection X as <-. now apply (V e0).
Qed.
Lemma awk_release s : awk s -> awk (release s).
Proof. apply awk_core; [apply release_procs|intros c; apply core_release]. Qed.
Lemma awk_end s c : awk s -> awk (end_guard s c).
Proof. apply awk_core; [unfold end_guard, change, set_entries; cbn [s_procs]; apply release_procs|intros d; apply core_end_guard]. Qed.
Lemma awk_need s y : awk s -> awk (set_need s y).
Proof.
  intros A. constructor.
  - intros i p. unfold set_need. rewrite nth_change_proc. destruct (nth_error (s_procs s) i) as [q|] eqn:E; [|discriminate]. intros X. injection X as <-. destruct (i =? y); cbn; apply (a_so _ A i q E).
  - intros c e E. apply (ext_valid s); [apply ext_need|]. now apply (a_val _ A c e).
Qed.
Lemma find_change_self s c f : (forall e, e_id (f e) = e_id e) -> forall e, find_entry (s_entries (change s c f)) c = Some e -> exists e0, find_entry (s_entries s) c = Some e0 /\ e = f e0.
Proof. intros F e. cbn [change set_entries s_entries]. rewrite find_upd, Nat.eqb_refl by exact F. destruct (find_entry (s_entries s) c) as [e0|]; [|discriminate]. intros X. injection X as <-. eauto. Qed.
Lemma awk_start s c l : awk s -> awk (start s c l) /\ of (start s c l) c (good (start s c l)).
Proof.
  intros A. unfold start. destruct (find_entry (s_entries s) c) as [e|] eqn:F; [|split; [exact A|intros e E; congruence]]. destruct (current s e).
  - cbv zeta. set (p := mkP (e_cat e) c false false false). set (s1 := set_procs s (s_procs s ++ [p])).
    assert (N : nth_error (s_procs s1) (length (s_procs s)) = Some p) by (unfold s1, set_procs; cbn [s_procs]; rewrite nth_error_app2, Nat.sub_diag by lia; reflexivity).
    assert (A1 : awk s1). { constructor.
      - intros i q. unfold s1, set_procs. cbn [s_procs]. intros X. destruct (Nat.lt_ge_cases i (length (s_procs s))) as [H|H]; [rewrite nth_error_app1 in X by exact H; now apply (a_so _ A i)|]. rewrite nth_error_app2 in X by exact H. destruct (i - length (s_procs s)) as [|[|?]]; cbn in X; try discriminate. injection X as <-. discriminate.
      - intros d e0 E. apply (ext_valid s); [|now apply (a_val _ A d e0)]. intros i q X. exists q. split; [|auto]. unfold s1, set_procs. cbn [s_procs]. rewrite nth_error_app1; [exact X|]. apply nth_error_Some. congruence. }
    assert (A2 : awk (set_guard s1 c (e_cat e) (length (s_procs s)))) by (apply (awk_core s1); [reflexivity|intros d; apply core_set_guard|exact A1]).
    split.
    + apply awk_change; [reflexivity|exact A2|]. intros e0 E. split; [discriminate|]. cbn. intros y <-. exists p. exact N.
    + intros e0 E. apply find_change_self in E; [|reflexivity]. destruct E as (e1 & E1 & ->). cbn. intros y <-. exists p. split; [exact N|reflexivity].
  - split; [apply awk_change; [reflexivity|exact A|]|].
    + intros e0 E. split; [exact (proj1 (a_val _ A c e0 E))|cbn; contradiction].
    + intros e0 E. apply find_change_self in E; [|reflexivity]. destruct E as (e1 & E1 & ->). cbn. intros y [].
Qed.
Lemma awk_exec l : forall s c, awk s -> awk (exec l s c) /\ of (exec l s c) c (good (exec l s c)).
Proof.
  assert (T : forall s c f, (forall e, e_id (f e) = e_id e) -> (forall e, e_file (f e) = e_file e) -> (forall e y, ~ waits (e_phase (f e)) y) -> awk s -> awk (change s c f) /\ of (change s c f) c (good (change s c f))).
  { intros s c f F G W A. split.
    - apply awk_change; [exact F|exact A|]. intros e E. split; [rewrite G; exact (proj1 (a_val _ A c e E))|intros y X; now apply W in X].
    - intros e E. apply find_change_self in E; [|exact F]. destruct E as (e0 & _ & ->). intros y X. now apply W in X. }
  induction l as [|[| |] l IH]; intros s c A; cbn [exec].
  - apply T; auto.
  - destruct (busy _ _); [apply T; auto|now apply awk_start].
  - destruct (file_of s c) as [y|] eqn:FO; [|now apply IH]. cbv zeta. set (s1 := set_guard (set_need (change s c (with_file None)) y) c (cat_of s c) y).
    assert (A1 : awk s1). { unfold s1. apply (awk_core (set_need (change s c (with_file None)) y)); [reflexivity|intros d; apply core_set_guard|]. apply awk_need. apply awk_change; [reflexivity|exact A|]. intros e E. split; [discriminate|exact (proj2 (a_val _ A c e E))]. }
    destruct (ready (s_procs s1) y) eqn:R; [apply IH, awk_end, A1|].
    assert (AL : alive_at s1 y). { unfold file_of in FO. destruct (find_entry (s_entries s) c) as [e|] eqn:E; [|discriminate]. destruct (proj1 (a_val _ A c e E) y FO) as [p P]. unfold ready in R. assert (N : nth_error (s_procs s1) y = Some (mkP (p_cat p) (p_owner p) (p_out p) (p_stat p) true)). { change (s_procs s1) with (s_procs (set_need s y)). unfold set_need. rewrite nth_change_proc, P, Nat.eqb_refl. reflexivity. }
      rewrite N in R. cbn in R. eexists. split; [exact N|exact R]. }
    split.
    + apply awk_change; [reflexivity|exact A1|]. intros e E. split; [exact (proj1 (a_val _ A1 c e E))|]. cbn. intros z <-. destruct AL as (p & P & _). now exists p.
    + intros e E. apply find_change_self in E; [|reflexivity]. destruct E as (e1 & E1 & ->). cbn. intros z <-. exact AL.
  - apply T; auto.
Qed.
Lemma awk_resume s c : awk s -> awk (resume s c) /\ of (resume s c) c (good (resume s c)).
Proof.
  intros A. unfold resume. destruct (find_entry (s_entries s) c) as [e|] eqn:F; [|split; [exact A|intros e E; congruence]]. pose proof (a_val _ A c e F) as [V1 V2].
  assert (Q : forall b, awk (change s c (with_queued b))) by (intros b; apply (awk_core s); [reflexivity|intros d; apply core_same; reflexivity|exact A]).
  assert (NR : forall y, waits (e_phase e) y -> ready (s_procs s) y = false -> alive_at s y). { intros y W R. destruct (V2 y W) as [p P]. exists p. split; [exact P|]. unfold ready in R. rewrite P in R. destruct (p_need p); [exact R|]. destruct (p_stat p) eqn:S; [|reflexivity]. rewrite (a_so _ A y p P S) in R. discriminate. }
  destruct (e_phase e) as [l|l|y l|y l|] eqn:E.
  - now apply awk_exec.
  - destruct (e_canceled e); [now apply awk_exec|]. destruct (busy _ _); [|now apply awk_start]. split; [exact A|]. intros e0 X. rewrite F in X. injection X as <-. unfold good. rewrite E. intros y [].
  - destruct (ready _ _) eqn:R.
    + apply awk_exec. apply awk_change; [reflexivity|now apply awk_end|]. intros e0 X. pose proof (a_val _ (awk_end s c A) c e0 X) as [_ W]. split; [|exact W]. cbn. intros z Z. injection Z as <-. apply (ext_exists s); [apply ext_end|]. apply V2. reflexivity.
    + split; [exact A|]. intros e0 X. rewrite F in X. injection X as <-. unfold good. rewrite E. intros z Z. cbn in Z. subst z. apply NR; [reflexivity|exact R].
  - destruct (ready _ _) eqn:R.
    + apply awk_exec. now apply awk_end.
    + split; [exact A|]. intros e0 X. rewrite F in X. injection X as <-. unfold good. rewrite E. intros z Z. cbn in Z. subst z. apply NR; [reflexivity|exact R].
  - split; [exact A|]. intros e0 X. rewrite F in X. injection X as <-. unfold good. rewrite E. intros y [].
Qed.
Lemma awk_resumes l : forall s, awk s -> awk (fold_left resume l s) /\ forall c, In c l \/ of s c (good s) -> of (fold_left resume l s) c (good (fold_left resume l s)).
Proof.
  induction l as [|d l IH]; intros s A; [split; [exact A|intros c [[]|G]; exact G]|]. cbn [fold_left]. destruct (awk_resume s d A) as [A1 G1]. destruct (IH _ A1) as [A2 G2]. split; [exact A2|]. intros c C. apply G2. destruct (Nat.eq_dec c d) as [->|N]; [now right|]. destruct C as [[C|C]|C]; [congruence|now left|]. right.
  apply (of_core s); [apply core_resume; congruence|intros e e'; apply good_core|]. intros e E. apply (ext_good s); [apply ext_resume|now apply C].
Qed.
Lemma awk_remove s c : awk s -> awk (remove_co s c).
Proof. intros A. apply awk_release in A. unfold remove_co. constructor; [apply (a_so _ A)|]. intros d e. cbn [set_entries s_entries]. rewrite find_filter. destruct (c =? d); [discriminate|]. intros X. exact (a_val _ A d e X). Qed.
Lemma awk_removes l : forall s, awk s -> awk (fold_left remove_co l s).
Proof. induction l as [|c l IH]; intros s A; [exact A|]. apply IH, awk_remove, A. Qed.
Lemma good_removes l : forall s d, of s d (good s) -> of (fold_left remove_co l s) d (good (fold_left remove_co l s)).
Proof.
  induction l as [|c l IH]; intros s d A; [exact A|]. apply IH. intros e. unfold remove_co. cbn [set_entries s_entries]. rewrite find_filter. destruct (c =? d); [discriminate|]. intros X.
  assert (Y : of (release s) d (good (release s))) by (apply (of_core s); [apply core_release|intros e1 e2; apply good_core|intros e1 E1; apply (ext_good s); [apply ext_eq, release_procs|now apply A]]). exact (Y e X).
Qed.
Lemma ids_change s c f : (forall e, e_id (f e) = e_id e) -> ids (change s c f) = ids s.
Proof. intros F. unfold ids. cbn [change set_entries s_entries]. now apply ids_upd. Qed.
Lemma ids_start s c l : ids (start s c l) = ids s.
Proof. unfold start. destruct (find_entry (s_entries s) c); [|reflexivity]. destruct (current s e); cbv zeta; rewrite ids_change by reflexivity; [|reflexivity]. unfold set_guard. rewrite ids_change by reflexivity. reflexivity. Qed.
Lemma ids_end s c : ids (end_guard s c) = ids s.
Proof. unfold end_guard. rewrite ids_change by reflexivity. apply ids_release. Qed.
Lemma ids_exec l : forall s c, ids (exec l s c) = ids s.
Proof.
  induction l as [|[| |] l IH]; intros s c; cbn [exec].
  - now apply ids_change.
  - destruct (busy _ _); [now apply ids_change|apply ids_start].
  - destruct (file_of s c); [|apply IH]. cbv zeta. assert (X : ids (set_guard (set_need (change s c (with_file None)) n) c (cat_of s c) n) = ids s) by (unfold set_guard; rewrite ids_change by reflexivity; exact (ids_change s c (with_file None) ltac:(reflexivity))). destruct (ready _ _); [rewrite IH, ids_end; exact X|]. rewrite ids_change by reflexivity. exact X.
  - now apply ids_change.
Qed.
Lemma ids_resume s c : ids (resume s c) = ids s.
Proof.
  unfold resume. destruct (find_entry (s_entries s) c) as [e|]; [|reflexivity]. destruct (e_phase e) as [l|l|y l|y l|]; [apply ids_exec| | | |reflexivity].
  - destruct (e_canceled e); [rewrite ids_exec; now apply ids_change|]. destruct (busy _ _); [reflexivity|]. rewrite ids_start. now apply ids_change.
  - destruct (ready _ _); [|reflexivity]. rewrite ids_exec, ids_change by reflexivity. apply ids_end.
  - destruct (ready _ _); [|reflexivity]. rewrite ids_exec. apply ids_end.
Qed.
Lemma ids_resumes l : forall s, ids (fold_left resume l s) = ids s.
Proof. induction l as [|c l IH]; intros s; [reflexivity|]. cbn [fold_left]. rewrite IH. apply ids_resume. Qed.
Lemma find_ids s c e : find_entry (s_entries s) c = Some e -> In c (ids s).
Proof. intros H. apply find_in in H. destruct H as [A <-]. unfold ids. now apply in_map. Qed.
Lemma good_pass order s : awk s -> Permutation order (ids (purge s)) -> awk (pass order s) /\ forall c, of (pass order s) c (good (pass order s)).
Proof.
  intros A P. unfold pass. cbv zeta. assert (A1 : awk (purge s)) by (unfold purge; now apply awk_removes). destruct (awk_resumes order _ A1) as [A2 G]. split; [now apply awk_removes|]. intros c. apply good_removes. intros e E. apply (G c); [left|exact E]. apply find_ids in E. rewrite ids_resumes in E. apply (Permutation_in _ (Permutation_sym P)). exact E.
Qed.
Lemma release_idle s b : release (set_idle s b) = set_idle (release s) b.
Proof. unfold release. cbn [set_idle s_procs s_cyg s_entries]. destruct (release_loop _ _ _); reflexivity. Qed.
Lemma removes_idle l : forall s b, fold_left remove_co l (set_idle s b) = set_idle (fold_left remove_co l s) b.
Proof. induction l as [|c l IH]; intros s b; [reflexivity|]. cbn [fold_left]. rewrite <- IH. f_equal. unfold remove_co. rewrite release_idle. reflexivity. Qed.
Lemma purge_idle s b : ids (purge (set_idle s b)) = ids (purge s).
Proof. unfold purge. change (filter (obsolete (set_idle s b)) (s_entries (set_idle s b))) with (filter (obsolete s) (s_entries s)). rewrite removes_idle. reflexivity. Qed.
(** the whole invariant *)
Record calm (s : st) : Prop := mkCalm { c_awk : awk s; c_good : s_idle s = false -> forall c, of s c (good s) }.
Lemma calm_step s e s' : lk None s -> calm s -> no_remove e -> step s e s' -> calm s'.
Proof.
  intros L C N St. pose proof (c_awk _ C) as A. destruct St as [cat until l| |c|c|y p P B|y p P B D| |order I1 P|order D P].
  - assert (X : forall d e, find_entry (s_entries (create cat until l s)) d = Some e -> find_entry (s_entries s) d = Some e \/ e_phase e = Run l /\ e_file e = None).
    { intros d e. unfold create, find_entry. cbn [s_entries]. clear. induction (s_entries s) as [|x m IH]; [cbn; destruct (s_next s =? d); [|discriminate]; intros E; injection E as <-; now right|]. cbn [app find]. destruct (e_id x =? d); [now left|exact IH]. }
    constructor; [constructor; [apply (a_so _ A)|]|].
    + intros d e E. destruct (X d e E) as [E1|[E1 E2]]; [exact (a_val _ A d e E1)|]. split; [rewrite E2; discriminate|rewrite E1; intros y []].
    + intros Id d e E. destruct (X d e E) as [E1|[E1 E2]]; [exact (c_good _ C Id d e E1)|]. unfold good. rewrite E1. intros y [].
  - assert (X : forall d e, find_entry (s_entries (new_line s)) d = Some e -> find_entry (s_entries s) d = Some e). { intros d e E. apply find_in in E. destruct E as [E1 E2]. apply filter_In in E1. subst d. apply find_nodup; [apply (k_ids _ _ L)|tauto]. }
    constructor; [constructor; [apply (a_so _ A)|]|].
    + intros d e E. exact (a_val _ A d e (X d e E)).
    + intros Id d e E. exact (c_good _ C Id d e (X d e E)).
  - constructor.
    + apply awk_change; [reflexivity|exact A|]. intros e E. exact (a_val _ A c e E).
    + intros Id d e. cbn [change set_entries s_entries]. rewrite find_upd by reflexivity. destruct (c =? d); [|exact (c_good _ C Id d e)]. destruct (find_entry (s_entries s) d) as [e0|] eqn:F; [|discriminate]. intros X. injection X as <-. exact (c_good _ C Id d e0 F).
  - destruct N.
  - set (f := fun p => mkP (p_cat p) (p_owner p) true (p_stat p) (p_need p)). assert (X : forall i q, nth_error (s_procs s) i = Some q -> exists q', nth_error (s_procs (change_proc s y f)) i = Some q' /\ p_stat q' = p_stat q). { intros i q E. rewrite nth_change_proc, E. eexists. split; [reflexivity|]. destruct (i =? y); reflexivity. }
    assert (V : forall i, exists_at s i -> exists_at (change_proc s y f) i) by (intros i [q E]; destruct (X i q E) as (q' & E' & _); now exists q').
    constructor; [constructor|].
    + intros i q. rewrite nth_change_proc. destruct (nth_error (s_procs s) i) as [q0|] eqn:E; [|discriminate]. intros Y. injection Y as <-. destruct (i =? y); [reflexivity|]. exact (a_so _ A i q0 E).
    + intros d e E. destruct (a_val _ A d e E) as [V1 V2]. split; intros i H; apply V; auto.
    + intros Id d e E i W. destruct (c_good _ C Id d e E i W) as (q & Q & S). destruct (X i q Q) as (q' & Q' & S'). exists q'. split; [exact Q'|congruence].
  - set (f := fun p => mkP (p_cat p) (p_owner p) (p_out p) true (p_need p)).
    assert (V : forall i, exists_at s i -> exists_at (set_idle (change_proc s y f) true) i) by (intros i [q E]; unfold exists_at; cbn [set_idle s_procs]; rewrite nth_change_proc, E; eauto).
    constructor; [constructor|discriminate].
    + intros i q. cbn [set_idle s_procs]. rewrite nth_change_proc. destruct (nth_error (s_procs s) i) as [q0|] eqn:E; [|discriminate]. intros Y. injection Y as <-. destruct (i =? y) eqn:F; [|exact (a_so _ A i q0 E)]. intros _. cbn. assert (i = y) as -> by lia. congruence.
    + intros d e E. destruct (a_val _ A d e E) as [V1 V2]. split; intros i H; apply V; auto.
  - constructor; [now apply awk_release|]. intros Id c. assert (Id' : s_idle s = false) by (destruct (release_misc s) as (_ & _ & M); congruence). apply (of_core s); [apply core_release|intros e1 e2; apply good_core|]. intros e1 E1. apply (ext_good s); [apply ext_eq, release_procs|now apply (c_good _ C Id' c)].
  - destruct (good_pass order (set_idle s false)) as [A1 G1]; [apply (awk_core s); [reflexivity|reflexivity|exact A]|now rewrite purge_idle|]. constructor; [exact A1|intros _; exact G1].
  - destruct (good_pass order (release s)) as [A1 G1]; [now apply awk_release|exact P|]. constructor; [exact A1|intros _; exact G1].
Qed.
Lemma calm_init : calm init.
Proof. constructor; [constructor|]; [intros [|y]; discriminate|intros c e; discriminate|intros _ c e; discriminate]. Qed.
Lemma calm_run s l s' : run s l s' -> lk None s -> calm s -> Forall no_remove l -> calm s'.
Proof. induction 1 as [|s e s1 l s2 A R IH]; intros L C F; [exact C|]. inversion F; subst. apply IH; [now apply (lk_step s e)|now apply (calm_step s e)|assumption]. Qed.

(** ** a queued coroutine whose category is free starts its process *)
Definition running (s : st) (k : nat) : Prop := exists y p, nth_error (s_procs s) y = Some p /\ p_cat p = Some k /\ p_out p = false.
Lemma ext_running s s' k : ext s s' -> running s k -> running s' k.
Proof. intros X (y & p & A & B & C). destruct (X y p A) as (p' & A' & _ & O & K). exists y, p'. split; [exact A'|]. split; congruence. Qed.
Lemma free_subset s s' k : (forall x, In x (s_cyg s') -> In x (s_cyg s)) -> busy s (Some k) = false -> busy s' (Some k) = false.
Proof. intros X B. cbn [busy] in *. destruct (existsb (key_is k) (s_cyg s')) eqn:E; [|reflexivity]. apply existsb_exists in E. destruct E as (x & E1 & E2). rewrite <- B. symmetry. apply existsb_exists. exists x. auto. Qed.
Lemma start_running s c l e k : find_entry (s_entries s) c = Some e -> current s e = true -> e_cat e = Some k -> running (start s c l) k.
Proof. intros F C K. unfold start. rewrite F, C. cbv zeta. exists (length (s_procs s)). eexists. unfold set_guard, change, set_cyg, set_entries, set_procs. cbn [s_procs]. rewrite nth_error_app2, Nat.sub_diag by lia. split; [reflexivity|]. split; [exact K|reflexivity]. Qed.
Lemma start_free s c l k : busy s (Some k) = false -> busy (start s c l) (Some k) = false \/ running (start s c l) k.
Proof.
  intros B. destruct (find_entry (s_entries s) c) as [e|] eqn:F; [|left; unfold start; now rewrite F]. destruct (current s e) eqn:C; [|left; unfold start; now rewrite F, C].
  destruct (e_cat e) as [j|] eqn:K.
  - destruct (Nat.eq_dec j k) as [->|N]; [right; now apply (start_running s c l e)|left]. unfold start. rewrite F, C, K. unfold set_guard, change, set_cyg, set_entries, set_procs. cbn [s_cyg busy] in *. cbn [existsb key_is]. replace (j =? k) with false by lia. cbn [orb]. destruct (existsb _ (filter _ _)) eqn:E; [|reflexivity]. apply existsb_exists in E. destruct E as (x & E1 & E2). apply filter_In in E1. rewrite <- B. symmetry. apply existsb_exists. exists x. tauto.
  - left. unfold start. rewrite F, C, K. unfold set_guard, change, set_cyg, set_entries, set_procs. cbn [s_cyg busy] in *. rewrite existsb_app, B. reflexivity.
Qed.
Lemma exec_free l s c k : ~ In AClose l -> busy s (Some k) = false -> busy (exec l s c) (Some k) = false \/ running (exec l s c) k.
Proof. intros N B. destruct l as [|[| |] l0]; cbn [exec]; [now left| |exfalso; apply N; now left|now left]. destruct (busy s (cat_of s c)); [now left|now apply start_free]. Qed.
Lemma end_free s c k : busy s (Some k) = false -> busy (end_guard s c) (Some k) = false.
Proof. apply free_subset. intros x. cbn [end_guard change set_entries s_cyg]. rewrite release_cyg. apply release_loop_kept. Qed.
Lemma resume_free s c k : once s -> busy s (Some k) = false -> busy (resume s c) (Some k) = false \/ running (resume s c) k.
Proof.
  intros O B. unfold resume. destruct (find_entry (s_entries s) c) as [e|] eqn:F; [|now left]. assert (NC : no_close e). { apply find_in in F. pose proof (o_entries _ O) as X. rewrite Forall_forall in X. now apply X. }
  unfold no_close in NC. destruct (e_phase e) as [l|l|y l|y l|]; cbn [acts_of] in NC.
  - now apply exec_free.
  - destruct (e_canceled e); [now apply exec_free|]. destruct (busy s (e_cat e)); [now left|now apply start_free].
  - destruct (ready _ _); [|now left]. apply exec_free; [exact NC|]. exact (end_free s c k B).
  - destruct (ready _ _); [|now left]. apply exec_free; [exact NC|]. exact (end_free s c k B).
  - now left.
Qed.
Lemma gen_exec l : forall s c, s_gen (exec l s c) = s_gen s.
Proof.
  assert (R : forall s c, s_gen (end_guard s c) = s_gen s) by (intros s c; unfold end_guard, change, set_entries; cbn [s_gen]; apply release_misc).
  assert (S0 : forall s c l, s_gen (start s c l) = s_gen s) by (intros s c l0; unfold start; destruct (find_entry (s_entries s) c) as [e|]; [|reflexivity]; destruct (current s e); reflexivity).
  induction l as [|[| |] l IH]; intros s c; cbn [exec]; [reflexivity| | |reflexivity].
  - destruct (busy _ _); [reflexivity|apply S0].
  - destruct (file_of s c); [|apply IH]. cbv zeta. destruct (ready _ _); [rewrite IH, R; reflexivity|reflexivity].
Qed.
Lemma gen_resume s c : s_gen (resume s c) = s_gen s.
Proof.
  assert (R : forall s c, s_gen (end_guard s c) = s_gen s) by (intros s0 c0; unfold end_guard, change, set_entries; cbn [s_gen]; apply release_misc).
  assert (S0 : forall s c l, s_gen (start s c l) = s_gen s) by (intros s0 c0 l0; unfold start; destruct (find_entry (s_entries s0) c0) as [e|]; [|reflexivity]; destruct (current s0 e); reflexivity).
  unfold resume. destruct (find_entry (s_entries s) c) as [e|]; [|reflexivity]. destruct (e_phase e); [apply gen_exec| | | |reflexivity].
  - destruct (e_canceled e); [now rewrite gen_exec|]. destruct (busy _ _); [reflexivity|now rewrite S0].
  - destruct (ready _ _); [|reflexivity]. rewrite gen_exec. apply R.
  - destruct (ready _ _); [|reflexivity]. rewrite gen_exec. apply R.
Qed.
(** [b] waits in the queue of category [k] and may go on *)
Definition queued_in (s : st) (b k : nat) : Prop := exists e l, find_entry (s_entries s) b = Some e /\ e_phase e = Queue l /\ e_canceled e = false /\ e_cat e = Some k /\ current s e = true.
Lemma queued_core s s' b k : core_of s' b = core_of s b -> s_gen s' = s_gen s -> queued_in s b k -> queued_in s' b k.
Proof.
  unfold core_of, core. intros E G (e & l & F & P & C & K & U). rewrite F in E. destruct (find_entry (s_entries s') b) as [e'|] eqn:F'; [|discriminate]. cbn [option_map] in E. injection E as E1 E2 E3 E4 E5 E6.
  exists e', l. split; [exact F'|]. split; [congruence|]. split; [congruence|]. split; [congruence|]. unfold current in *. now rewrite E2, E3, G.
Qed.
Lemma served_resumes b k l : forall s, once s -> (running s k \/ (busy s (Some k) = false /\ queued_in s b k /\ In b l)) -> running (fold_left resume l s) k.
Proof.
  induction l as [|d l IH]; intros s O H; [destruct H as [H|(_ & _ & [])]; exact H|]. cbn [fold_left]. apply IH; [now apply once_resume|]. destruct H as [H|(B & Q & H)]; [left; apply (ext_running s); [apply ext_resume|exact H]|].
  destruct (Nat.eq_dec d b) as [->|N].
  - left. destruct Q as (e & q & F & P & C & K & U). unfold resume. rewrite F, P, C, K, B. apply (start_running _ b q (with_queued false e)); [cbn [change set_entries s_entries]; rewrite find_upd, Nat.eqb_refl, F by reflexivity; reflexivity|exact U|exact K].
  - destruct (resume_free s d k O B) as [B1|R]; [right|now left]. split; [exact B1|]. split; [|destruct H as [H|H]; [congruence|exact H]]. apply (queued_core s); [now apply core_resume|apply gen_resume|exact Q].
Qed.
Lemma free_removes l k : forall s, busy s (Some k) = false -> busy (fold_left remove_co l s) (Some k) = false.
Proof. induction l as [|c l IH]; intros s B; [exact B|]. apply IH. revert B. apply free_subset. intros x. cbn [remove_co set_entries s_cyg]. rewrite release_cyg. apply release_loop_kept. Qed.
Lemma gen_removes l : forall s, s_gen (fold_left remove_co l s) = s_gen s.
Proof. induction l as [|c l IH]; intros s; [reflexivity|]. cbn [fold_left]. rewrite IH. cbn [remove_co set_entries s_gen]. apply release_misc. Qed.
Lemma served_pass s b k order : lk None s -> once s -> busy s (Some k) = false -> queued_in s b k -> Permutation order (ids (purge s)) -> running (pass order s) k.
Proof.
  intros L O B Q P. assert (NB : ~ In b (map e_id (filter (obsolete s) (s_entries s)))). { intros X. apply in_map_iff in X. destruct X as (e0 & E1 & E2). apply filter_In in E2. destruct E2 as [E2 E3]. pose proof (find_nodup _ e0 (k_ids _ _ L) E2) as F0. rewrite E1 in F0. destruct Q as (e & q & F & PQ & _ & _ & U). rewrite F in F0. injection F0 as <-. unfold obsolete, is_dead in E3. rewrite PQ, U in E3. discriminate. }
  assert (Q1 : queued_in (purge s) b k) by (apply (queued_core s); [unfold purge; now apply core_removes|unfold purge; apply gen_removes|exact Q]).
  unfold pass. cbv zeta. apply (ext_running (fold_left resume order (purge s))); [apply ext_eq, procs_removes|]. apply (served_resumes b k); [unfold purge; now apply once_removes|]. right. split; [unfold purge; now apply free_removes|]. split; [exact Q1|]. apply (Permutation_in _ (Permutation_sym P)). destruct Q1 as (e & q & F & _). now apply find_ids in F.
Qed.
