From Coq Require Import Permutation.
From Verif Require Import Base CoModel CoProofs.
Open Scope nat_scope.

(** ** finding entries *)
Lemma find_upd l c f d : (forall e, e_id (f e) = e_id e) -> find_entry (upd l c f) d = if c =? d then option_map f (find_entry l d) else find_entry l d.
Proof.
  intros F. unfold find_entry, upd. induction l as [|e l IH]; [destruct (c =? d); reflexivity|]. cbn [map find]. destruct (e_id e =? c) eqn:E.
  - rewrite F. destruct (e_id e =? d) eqn:E2; [|exact IH]. replace (c =? d) with true by lia. reflexivity.
  - destruct (e_id e =? d) eqn:E2; [|exact IH]. replace (c =? d) with false by lia. reflexivity.
Qed.
Lemma find_dequeue k l d : find_entry (dequeue k l) d = match find_entry l d with Some e => Some e | None => None end \/ find_entry (dequeue k l) d = option_map (with_queued false) (find_entry l d).
Proof.
  unfold find_entry. induction l as [|e l IH]; [now left|]. cbn [dequeue find]. destruct (_ && _); cbn [find].
  - destruct (e_id (with_queued false e) =? d) eqn:E; cbn [with_queued e_id] in E; rewrite E; [now right|]. left. destruct (find _ l); reflexivity.
  - destruct (e_id e =? d); [now left|exact IH].
Qed.
Lemma find_filter l c d : find_entry (filter (fun e => negb (e_id e =? c)) l) d = if c =? d then None else find_entry l d.
Proof.
  unfold find_entry. induction l as [|e l IH]; [destruct (c =? d); reflexivity|]. cbn [filter find]. destruct (e_id e =? c) eqn:E; cbn [negb find].
  - destruct (e_id e =? d) eqn:E2; [|exact IH]. replace (c =? d) with true in * by lia. exact IH.
  - destruct (e_id e =? d) eqn:E2; [|exact IH]. replace (c =? d) with false by lia. reflexivity.
Qed.
Lemma find_nodup l e : NoDup (map e_id l) -> In e l -> find_entry l (e_id e) = Some e.
Proof.
  unfold find_entry. induction l as [|x l IH]; intros N H; [destruct H|]. inversion N as [|a b A B]. subst. cbn [find]. destruct H as [->|H]; [now rewrite Nat.eqb_refl|]. destruct (e_id x =? e_id e) eqn:E; [|now apply IH]. exfalso. apply A. apply Nat.eqb_eq in E. rewrite E. now apply in_map.
Qed.
Lemma ids_upd l c f : (forall e, e_id (f e) = e_id e) -> map e_id (upd l c f) = map e_id l.
Proof. intros F. unfold upd. rewrite map_map. apply map_ext. intros e. destruct (e_id e =? c); [apply F|reflexivity]. Qed.
Lemma ids_dequeue k l : map e_id (dequeue k l) = map e_id l.
Proof. induction l as [|e l IH]; [reflexivity|]. cbn [dequeue]. destruct (_ && _); cbn [map]; [reflexivity|now rewrite IH]. Qed.
Lemma ids_release_loop ps items : forall l, map e_id (fst (release_loop ps items l)) = map e_id l.
Proof. induction items as [|[[k c] y] r IH]; intros l; [reflexivity|]. cbn [release_loop]. destruct (_ && _); [rewrite IH, ids_dequeue; now apply ids_upd|]. specialize (IH l). now destruct (release_loop ps r l). Qed.
Lemma ids_release s : ids (release s) = ids s.
Proof. unfold ids. rewrite release_entries. apply ids_release_loop. Qed.

(** ** what others cannot change of a coroutine *)
Definition core (e : entry) := (e_cat e, e_gen e, e_until e, e_canceled e, e_phase e, e_file e).
Definition core_of (s : st) (c : nat) := option_map core (find_entry (s_entries s) c).
Lemma core_release_loop ps items : forall l d, option_map core (find_entry (fst (release_loop ps items l)) d) = option_map core (find_entry l d).
Proof.
  induction items as [|[[k c] y] r IH]; intros l d; [reflexivity|]. cbn [release_loop]. destruct (_ && _).
  - rewrite IH. assert (X : option_map core (find_entry (upd l c (with_guard None)) d) = option_map core (find_entry l d)). { rewrite find_upd by reflexivity. destruct (c =? d); [|reflexivity]. now destruct (find_entry l d). }
    rewrite <- X. destruct (find_dequeue k (upd l c (with_guard None)) d) as [E|E]; rewrite E; destruct (find_entry _ d); reflexivity.
  - specialize (IH l d). now destruct (release_loop ps r l).
Qed.
Lemma core_release s d : core_of (release s) d = core_of s d.
Proof. unfold core_of. rewrite release_entries. apply core_release_loop. Qed.
Lemma core_change s c f d : (forall e, e_id (f e) = e_id e) -> c <> d -> core_of (change s c f) d = core_of s d.
Proof. intros F N. unfold core_of. cbn [change set_entries s_entries]. rewrite find_upd by exact F. now replace (c =? d) with false by lia. Qed.
Lemma core_same s c f d : (forall e, e_id (f e) = e_id e) -> (forall e, core (f e) = core e) -> core_of (change s c f) d = core_of s d.
Proof. intros F G. unfold core_of. cbn [change set_entries s_entries]. rewrite find_upd by exact F. destruct (c =? d); [|reflexivity]. destruct (find_entry (s_entries s) d); [cbn; now rewrite G|reflexivity]. Qed.
Lemma core_end_guard s c d : core_of (end_guard s c) d = core_of s d.
Proof. unfold end_guard. rewrite core_same by reflexivity. apply core_release. Qed.
Lemma core_set_guard s c cat y d : core_of (set_guard s c cat y) d = core_of s d.
Proof. unfold set_guard. rewrite core_same by reflexivity. reflexivity. Qed.
Lemma core_start s c l d : c <> d -> core_of (start s c l) d = core_of s d.
Proof. intros N. unfold start. destruct (find_entry (s_entries s) c); [|reflexivity]. destruct (current s e); rewrite core_change by (reflexivity || exact N); [now rewrite core_set_guard|reflexivity]. Qed.
Lemma core_exec l : forall s c d, c <> d -> core_of (exec l s c) d = core_of s d.
Proof.
  induction l as [|[| |] l IH]; intros s c d N; cbn [exec].
  - now apply core_change.
  - destruct (busy _ _); [now apply core_change|now apply core_start].
  - destruct (file_of s c) as [y|]; [|now apply IH]. cbv zeta. assert (X : core_of (set_guard (set_need (change s c (with_file None)) y) c (cat_of s c) y) d = core_of s d). { rewrite core_set_guard. unfold core_of at 1. cbn [set_need change_proc set_procs s_entries]. fold (core_of (change s c (with_file None)) d). now apply core_change. }
    destruct (ready _ _); [rewrite IH by exact N; now rewrite core_end_guard|]. rewrite core_change by (reflexivity || exact N). exact X.
  - now apply core_change.
Qed.
Lemma core_resume s c d : c <> d -> core_of (resume s c) d = core_of s d.
Proof.
  intros N. unfold resume. destruct (find_entry (s_entries s) c) as [e|]; [|reflexivity]. destruct (e_phase e) as [l|l|y l|y l|].
  - now apply core_exec.
  - destruct (e_canceled e); [rewrite core_exec by exact N; now apply core_change|]. destruct (busy _ _); [reflexivity|]. rewrite core_start by exact N. now apply core_change.
  - destruct (ready _ _); [|reflexivity]. rewrite core_exec by exact N. rewrite core_change by (reflexivity || exact N). apply core_end_guard.
  - destruct (ready _ _); [|reflexivity]. rewrite core_exec by exact N. apply core_end_guard.
  - reflexivity.
Qed.
Lemma core_remove s c d : c <> d -> core_of (remove_co s c) d = core_of s d.
Proof. intros N. unfold remove_co, core_of. cbn [set_entries s_entries]. rewrite find_filter. replace (c =? d) with false by lia. apply (core_release s d). Qed.
Lemma core_removes l : forall s d, ~ In d l -> core_of (fold_left remove_co l s) d = core_of s d.
Proof. induction l as [|c l IH]; intros s d N; [reflexivity|]. cbn [fold_left]. rewrite IH by (intros X; apply N; now right). apply core_remove. intros ->. apply N. now left. Qed.

(** ** the yieldguards are those of coroutines *)
Definition guard_of (l : list entry) (c : nat) : option (option nat) := option_map e_guard (find_entry l c).
Definition phase_ok (e : entry) : Prop :=
  match e_phase e with Guard y _ | Closing y _ => e_guard e = None \/ e_guard e = Some y | _ => e_guard e = None end /\
  (e_queued e = true -> exists l, e_phase e = Queue l).
Definition owner (x : option nat * nat * nat) : nat := snd (fst x).
Record lk (x : option nat) (s : st) : Prop := mkLk {
  k_ids : NoDup (ids s);
  k_next : Forall (fun c => c < s_next s) (ids s);
  k_cyg : forall k c y, In (k, c, y) (s_cyg s) -> guard_of (s_entries s) c = Some (Some y);
  k_own : NoDup (map owner (s_cyg s));
  k_ph : forall d e, Some d <> x -> find_entry (s_entries s) d = Some e -> phase_ok e }.
Lemma guard_upd l c f d : (forall e, e_id (f e) = e_id e) -> guard_of (upd l c f) d = if c =? d then option_map (fun e => e_guard (f e)) (find_entry l d) else guard_of l d.
Proof. intros F. unfold guard_of. rewrite find_upd by exact F. destruct (c =? d); [|reflexivity]. now destruct (find_entry l d). Qed.
Lemma guard_dequeue k l d : guard_of (dequeue k l) d = guard_of l d.
Proof. unfold guard_of. destruct (find_dequeue k l d) as [E|E]; rewrite E; destruct (find_entry l d); reflexivity. Qed.
Lemma phase_ok_dequeue k l d : (forall e, find_entry l d = Some e -> phase_ok e) -> forall e, find_entry (dequeue k l) d = Some e -> phase_ok e.
Proof.
  intros H e E. destruct (find_dequeue k l d) as [X|X]; rewrite X in E; destruct (find_entry l d) as [e0|]; try discriminate.
  - injection E as <-. now apply H.
  - injection E as <-. destruct (H e0 eq_refl) as [A B]. split; [exact A|cbn; discriminate].
Qed.
Lemma phase_ok_no_guard e : phase_ok e -> phase_ok (with_guard None e).
Proof. intros [A B]. split; [|exact B]. cbn [with_guard e_phase e_guard]. destruct (e_phase e); auto. Qed.
Lemma phase_ok_upd l c d : (forall e, find_entry l d = Some e -> phase_ok e) -> forall e, find_entry (upd l c (with_guard None)) d = Some e -> phase_ok e.
Proof. intros H e. rewrite find_upd by reflexivity. destruct (c =? d); [|apply H]. destruct (find_entry l d) as [e0|]; [|discriminate]. intros E. injection E as <-. now apply phase_ok_no_guard, H. Qed.
Lemma loop_guard ps items : forall l d, guard_of (fst (release_loop ps items l)) d = guard_of l d \/ (guard_of (fst (release_loop ps items l)) d = Some None /\ In d (map owner items)).
Proof.
  induction items as [|[[k c] y] r IH]; intros l d; [now left|]. cbn [release_loop]. destruct (ready ps y && _) eqn:E.
  - destruct (IH (dequeue k (upd l c (with_guard None))) d) as [X|[X Y]]; [|right; split; [exact X|now right]]. rewrite X, guard_dequeue, guard_upd by reflexivity. destruct (c =? d) eqn:F; [|now left]. assert (c = d) as -> by lia.
    destruct (find_entry l d) as [e|] eqn:G; [right; split; [reflexivity|now left]|]. left. unfold guard_of. now rewrite G.
  - specialize (IH l d). destruct (release_loop ps r l) as [l' kept]. cbn [fst] in *. destruct IH as [X|[X Y]]; [now left|right]. split; [exact X|now right].
Qed.
Lemma loop_linked ps items : forall l, NoDup (map owner items) -> (forall k c y, In (k, c, y) items -> guard_of l c = Some (Some y)) ->
  forall k c y, In (k, c, y) (snd (release_loop ps items l)) -> guard_of (fst (release_loop ps items l)) c = Some (Some y) /\ ready ps y = false.
Proof.
  induction items as [|[[k0 c0] y0] r IH]; intros l N H k c y X; [destruct X|]. cbn [map] in N. inversion N as [|a b A B]. subst a b. cbn [owner fst snd] in A. cbn [release_loop] in *. pose proof (H k0 c0 y0 (or_introl eq_refl)) as G0.
  assert (T : match find_entry l c0 with Some e => is_guard (e_guard e) y0 | None => false end = true). { unfold guard_of in G0. destruct (find_entry l c0) as [e|]; [|discriminate]. injection G0 as G0. rewrite G0. cbn. apply Nat.eqb_refl. }
  rewrite T in *. rewrite Bool.andb_true_r in *. destruct (ready ps y0) eqn:R.
  - refine (IH (dequeue k0 (upd l c0 (with_guard None))) B _ k c y X). intros k1 c1 y1 Y. rewrite guard_dequeue, guard_upd by reflexivity. destruct (c0 =? c1) eqn:E; [|apply (H k1 c1 y1); now right]. exfalso. apply A. assert (c0 = c1) as -> by lia. apply (in_map owner) in Y. exact Y.
  - specialize (IH l B (fun k1 c1 y1 Y => H k1 c1 y1 (or_intror Y)) k c y). pose proof (loop_guard ps r l c0) as LG. destruct (release_loop ps r l) as [l' kept]. cbn [fst snd] in *. destruct X as [X|X]; [|now apply IH]. injection X as <- <- <-. split; [|exact R]. destruct LG as [Z|[_ Z]]; [now rewrite Z|contradiction].
Qed.
Lemma loop_owners ps items : forall l, NoDup (map owner items) -> NoDup (map owner (snd (release_loop ps items l))).
Proof.
  induction items as [|[[k c] y] r IH]; intros l N; [constructor|]. cbn [map] in N. inversion N as [|a b A B]. subst a b. cbn [release_loop]. destruct (_ && _); [now apply IH|]. specialize (IH l B). pose proof (release_loop_kept ps r l) as K. destruct (release_loop ps r l) as [l' kept]. cbn [fst snd map] in *. constructor; [|exact IH].
  intros X. apply A. apply in_map_iff in X. destruct X as (z & Z1 & Z2). apply in_map_iff. exists z. auto.
Qed.
Lemma loop_phase ps items : forall l d, (forall e, find_entry l d = Some e -> phase_ok e) -> forall e, find_entry (fst (release_loop ps items l)) d = Some e -> phase_ok e.
Proof.
  induction items as [|[[k c] y] r IH]; intros l d H e E; [now apply H|]. cbn [release_loop] in E. destruct (_ && _).
  - apply (IH (dequeue k (upd l c (with_guard None))) d); [|exact E]. apply phase_ok_dequeue. now apply phase_ok_upd.
  - specialize (IH l d H e). destruct (release_loop ps r l) as [l' kept]. now apply IH.
Qed.
Lemma lk_release x s : lk x s -> lk x (release s) /\ (forall k c y, In (k, c, y) (s_cyg (release s)) -> ready (s_procs s) y = false).
Proof.
  intros L. pose proof (loop_linked (s_procs s) (s_cyg s) (s_entries s) (k_own _ _ L) (k_cyg _ _ L)) as A. destruct (release_misc s) as (_ & M & _). split.
  - constructor.
    + rewrite ids_release. apply (k_ids _ _ L).
    + rewrite ids_release, M. apply (k_next _ _ L).
    + intros k c y. rewrite release_cyg, release_entries. intros X. exact (proj1 (A k c y X)).
    + rewrite release_cyg. apply loop_owners, (k_own _ _ L).
    + intros d e D. rewrite release_entries. apply loop_phase. intros e0. now apply (k_ph _ _ L).
  - intros k c y. rewrite release_cyg. intros X. exact (proj2 (A k c y X)).
Qed.
Lemma lk_change x s c f : (forall e, e_id (f e) = e_id e) -> lk x s -> (forall e, find_entry (s_entries s) c = Some e -> e_guard (f e) = e_guard e) ->
  (forall e, Some c <> x -> find_entry (s_entries s) c = Some e -> phase_ok (f e)) -> lk x (change s c f).
Proof.
  intros F L G P. constructor.
  - unfold ids. cbn [change set_entries set_cyg set_procs s_entries s_cyg s_next s_procs]. rewrite ids_upd by exact F. apply (k_ids _ _ L).
  - unfold ids. cbn [change set_entries set_cyg set_procs s_entries s_cyg s_next s_procs]. rewrite ids_upd by exact F. apply (k_next _ _ L).
  - intros k d y X. cbn [change set_entries set_cyg set_procs s_entries s_cyg s_next s_procs] in *. rewrite guard_upd by exact F. pose proof (k_cyg _ _ L k d y X) as Y. destruct (c =? d) eqn:E; [|exact Y]. assert (c = d) as -> by lia. unfold guard_of in Y. destruct (find_entry (s_entries s) d) as [e|] eqn:Z; [|discriminate]. cbn in *. rewrite G by reflexivity. exact Y.
  - apply (k_own _ _ L).
  - intros d e D. cbn [change set_entries set_cyg set_procs s_entries s_cyg s_next s_procs]. rewrite find_upd by exact F. destruct (c =? d) eqn:E; [|now apply (k_ph _ _ L)]. assert (c = d) as -> by lia. destruct (find_entry (s_entries s) d) as [e0|] eqn:Z; [|discriminate]. intros X. injection X as <-. now apply P.
Qed.
Lemma lk_weaken s c : lk None s -> lk (Some c) s.
Proof. intros L. constructor; [apply (k_ids _ _ L)|apply (k_next _ _ L)|apply (k_cyg _ _ L)|apply (k_own _ _ L)|]. intros d e _. apply (k_ph _ _ L). discriminate. Qed.
Lemma lk_phase s c f : (forall e, e_id (f e) = e_id e) -> lk (Some c) s -> (forall e, find_entry (s_entries s) c = Some e -> e_guard (f e) = e_guard e /\ phase_ok (f e)) -> lk None (change s c f).
Proof.
  intros F L G. assert (L' : lk (Some c) (change s c f)) by (apply lk_change; [exact F|exact L|intros e E; now apply G|intros e N; now contradiction N]).
  constructor; [apply (k_ids _ _ L')|apply (k_next _ _ L')|apply (k_cyg _ _ L')|apply (k_own _ _ L')|]. intros d e _ E. destruct (Nat.eq_dec d c) as [->|N]; [|apply (k_ph _ _ L' d e); [congruence|exact E]].
  cbn [change set_entries set_cyg set_procs s_entries s_cyg s_next s_procs] in E. rewrite find_upd, Nat.eqb_refl in E by exact F. destruct (find_entry (s_entries s) c) as [e0|] eqn:Z; [|discriminate]. injection E as <-. now apply G.
Qed.
Lemma guard_change s c f d : (forall e, e_id (f e) = e_id e) -> (forall e, e_guard (f e) = e_guard e) -> guard_of (s_entries (change s c f)) d = guard_of (s_entries s) d.
Proof. intros F G. cbn [change set_entries set_cyg set_procs s_entries s_cyg s_next s_procs]. rewrite guard_upd by exact F. destruct (c =? d); [|reflexivity]. unfold guard_of. destruct (find_entry (s_entries s) d); [cbn; now rewrite G|reflexivity]. Qed.
Definition may_end (s : st) (c : nat) : Prop := guard_of (s_entries s) c = None \/ guard_of (s_entries s) c = Some None \/ exists y, guard_of (s_entries s) c = Some (Some y) /\ ready (s_procs s) y = true.
Lemma gone_after_release x s c : lk x s -> may_end s c -> forall k y, ~ In (k, c, y) (s_cyg (release s)).
Proof.
  intros L M k y X. destruct (lk_release x s L) as [L1 R]. pose proof (k_cyg _ _ L1 k c y X) as G. specialize (R k c y X). rewrite release_entries in G. destruct (loop_guard (s_procs s) (s_cyg s) (s_entries s) c) as [E|[E _]]; rewrite E in G; [|discriminate].
  destruct M as [M|[M|(z & M & Z)]]; rewrite M in G; [discriminate|discriminate|]. injection G as ->. congruence.
Qed.
Lemma lk_end x s c : lk x s -> may_end s c -> lk x (end_guard s c) /\ (guard_of (s_entries s) c <> None -> guard_of (s_entries (end_guard s c)) c = Some None).
Proof.
  intros L M. pose proof (gone_after_release x s c L M) as G. destruct (lk_release x s L) as [L1 _]. unfold end_guard. split.
  - constructor.
    + unfold ids. cbn [change set_entries set_cyg set_procs s_entries s_cyg s_next s_procs]. rewrite ids_upd by reflexivity. apply (k_ids _ _ L1).
    + unfold ids. cbn [change set_entries set_cyg set_procs s_entries s_cyg s_next s_procs]. rewrite ids_upd by reflexivity. apply (k_next _ _ L1).
    + intros k d y X. cbn [change set_entries set_cyg set_procs s_entries s_cyg s_next s_procs] in *. rewrite guard_upd by reflexivity. destruct (c =? d) eqn:E; [|now apply (k_cyg _ _ L1 k)]. assert (c = d) as -> by lia. exfalso. now apply (G k y).
    + apply (k_own _ _ L1).
    + intros d e D. cbn [change set_entries set_cyg set_procs s_entries s_cyg s_next s_procs]. rewrite find_upd by reflexivity. destruct (c =? d) eqn:E; [|now apply (k_ph _ _ L1)]. destruct (find_entry (s_entries (release s)) d) as [e0|] eqn:Z; [|discriminate]. intros X. injection X as <-. apply phase_ok_no_guard. now apply (k_ph _ _ L1 d).
  - intros N. cbn [change set_entries set_cyg set_procs s_entries s_cyg s_next s_procs]. rewrite guard_upd, Nat.eqb_refl by reflexivity. destruct (find_entry (s_entries (release s)) c) as [e|] eqn:Z; [reflexivity|]. exfalso. rewrite release_entries in Z. destruct (loop_guard (s_procs s) (s_cyg s) (s_entries s) c) as [E|[E _]]; unfold guard_of in E at 1; rewrite Z in E; cbn in E; [now apply N|discriminate].
Qed.
Lemma nodup_map_filter {A B} (f : A -> B) p l : NoDup (map f l) -> NoDup (map f (filter p l)).
Proof. induction l as [|x l IH]; intros N; [constructor|]. cbn [map] in N. inversion N as [|a b C D]. subst. cbn [filter]. destruct (p x); [|now apply IH]. cbn [map]. constructor; [|now apply IH]. intros X. apply C. apply in_map_iff in X. destruct X as (z & Z1 & Z2). apply filter_In in Z2. apply in_map_iff. exists z. tauto. Qed.
Lemma lk_set_guard s c cat y : lk (Some c) s -> guard_of (s_entries s) c = Some None -> lk (Some c) (set_guard s c cat y) /\ guard_of (s_entries (set_guard s c cat y)) c = Some (Some y).
Proof.
  intros L G. assert (G' : forall k z, ~ In (k, c, z) (s_cyg s)) by (intros k z X; pose proof (k_cyg _ _ L k c z X); congruence). assert (G2 : ~ In c (map owner (s_cyg s))). { intros X. apply in_map_iff in X. destruct X as ([[k d] z] & X1 & X2). cbn in X1. subst d. now apply (G' k z). }
  assert (C : guard_of (upd (s_entries s) c (with_guard (Some y))) c = Some (Some y)). { rewrite guard_upd, Nat.eqb_refl by reflexivity. unfold guard_of in G. destruct (find_entry (s_entries s) c); [reflexivity|discriminate]. }
  split; [|exact C]. constructor; unfold set_guard, change, set_cyg, set_entries, ids; cbn [s_entries s_cyg s_next].
  - rewrite ids_upd by reflexivity. apply (k_ids _ _ L).
  - rewrite ids_upd by reflexivity. apply (k_next _ _ L).
  - assert (O : forall k d z, In (k, d, z) (s_cyg s) -> guard_of (upd (s_entries s) c (with_guard (Some y))) d = Some (Some z)). { intros k d z X. rewrite guard_upd by reflexivity. destruct (c =? d) eqn:E; [assert (c = d) as -> by lia; exfalso; now apply (G' k z)|now apply (k_cyg _ _ L k)]. }
    intros k d z. destruct cat as [j|]; intros X; [destruct X as [X|X]; [injection X as <- <- <-; exact C|apply filter_In in X; now apply (O k)]|]. apply in_app_or in X. destruct X as [X|[X|[]]]; [now apply (O k)|injection X as <- <- <-; exact C].
  - destruct cat as [j|]; cbn [map].
    + constructor; [|apply nodup_map_filter, (k_own _ _ L)]. cbn [owner fst snd]. intros X. apply G2. apply in_map_iff in X. destruct X as (z & X1 & X2). apply filter_In in X2. apply in_map_iff. exists z. tauto.
    + rewrite map_app. cbn [map owner fst snd]. apply (Permutation_NoDup (Permutation_cons_append (map owner (s_cyg s)) c)). constructor; [exact G2|apply (k_own _ _ L)].
  - intros d e D. rewrite find_upd by reflexivity. replace (c =? d) with false by (destruct (c =? d) eqn:E; [exfalso; apply D; f_equal; lia|reflexivity]). now apply (k_ph _ _ L).
Qed.
Lemma lk_procs x s l : lk x s -> lk x (set_procs s l).
Proof. intros L. constructor; [apply (k_ids _ _ L)|apply (k_next _ _ L)|apply (k_cyg _ _ L)|apply (k_own _ _ L)|apply (k_ph _ _ L)]. Qed.
(** the coroutine that runs is not marked as queued *)
Definition queued_of (l : list entry) (c : nat) : option bool := option_map e_queued (find_entry l c).
Lemma queued_release s c : queued_of (s_entries s) c = Some false -> queued_of (s_entries (release s)) c = Some false.
Proof.
  rewrite release_entries. generalize (s_cyg s), (s_entries s). intros items. induction items as [|[[k d] y] r IH]; intros l H; [exact H|]. cbn [release_loop]. destruct (_ && _); [|specialize (IH l H); now destruct (release_loop (s_procs s) r l)]. apply IH. unfold queued_of in *.
  assert (X : option_map e_queued (find_entry (upd l d (with_guard None)) c) = Some false) by (rewrite find_upd by reflexivity; destruct (d =? c); [destruct (find_entry l c); exact H|exact H]).
  destruct (find_dequeue k (upd l d (with_guard None)) c) as [E|E]; rewrite E; destruct (find_entry (upd l d (with_guard None)) c); try discriminate; [exact X|reflexivity].
Qed.
Lemma queued_change s c f d : (forall e, e_id (f e) = e_id e) -> (forall e, e_queued (f e) = e_queued e) -> queued_of (s_entries (change s c f)) d = queued_of (s_entries s) d.
Proof. intros F G. unfold queued_of. cbn [change set_entries set_cyg set_procs s_entries s_cyg s_next s_procs]. rewrite find_upd by exact F. destruct (c =? d); [|reflexivity]. destruct (find_entry (s_entries s) d); [cbn; now rewrite G|reflexivity]. Qed.
Lemma lk_start s c l : lk (Some c) s -> guard_of (s_entries s) c = Some None -> queued_of (s_entries s) c = Some false -> lk None (start s c l).
Proof.
  intros L G Q. unfold start. unfold guard_of in G at 1. unfold queued_of in Q. destruct (find_entry (s_entries s) c) as [e|] eqn:F; [|discriminate]. injection G as G. injection Q as Q. destruct (current s e).
  - assert (G1 : guard_of (s_entries (set_procs s (s_procs s ++ [mkP (e_cat e) c false false false]))) c = Some None) by (unfold guard_of; cbn [set_procs s_entries]; rewrite F; cbn [option_map]; now rewrite G).
    destruct (lk_set_guard _ c (e_cat e) (length (s_procs s)) (lk_procs (Some c) s (s_procs s ++ [mkP (e_cat e) c false false false]) L) G1) as [L1 G2]. cbv zeta. apply lk_phase; [reflexivity|exact L1|]. intros e0 E. split; [reflexivity|]. unfold guard_of in G2. rewrite E in G2. injection G2 as G2.
    unfold set_guard, change, set_cyg, set_entries in E. cbn [s_entries set_procs] in E. rewrite find_upd, Nat.eqb_refl, F in E by reflexivity. injection E as <-. split; [right; reflexivity|]. cbn. rewrite Q. discriminate.
  - apply lk_phase; [reflexivity|exact L|]. intros e0 E. rewrite F in E. injection E as <-. split; [reflexivity|]. split; [exact G|]. cbn. rewrite Q. discriminate.
Qed.
Lemma lk_exec l : forall s c, lk (Some c) s -> guard_of (s_entries s) c = Some None -> queued_of (s_entries s) c = Some false -> lk None (exec l s c).
Proof.
  induction l as [|[| |] l IH]; intros s c L G Q; cbn [exec].
  - apply lk_phase; [reflexivity|exact L|]. intros e E. split; [reflexivity|]. unfold guard_of, queued_of in *. rewrite E in G, Q. injection G as G. injection Q as Q. split; [exact G|cbn; rewrite Q; discriminate].
  - destruct (busy _ _); [|now apply lk_start]. apply lk_phase; [reflexivity|exact L|]. intros e E. split; [reflexivity|]. unfold guard_of, queued_of in *. rewrite E in G. injection G as G. split; [exact G|cbn; eauto].
  - destruct (file_of s c) as [y|]; [|now apply IH]. cbv zeta. set (s1 := set_need (change s c (with_file None)) y).
    assert (L1 : lk (Some c) s1). { unfold s1. apply lk_procs. apply lk_change; [reflexivity|exact L|reflexivity|]. intros e N. now contradiction N. }
    assert (G1 : guard_of (s_entries s1) c = Some None) by (unfold s1; cbn [set_need change_proc set_procs s_entries]; rewrite guard_change by reflexivity; exact G).
    assert (Q1 : queued_of (s_entries s1) c = Some false) by (unfold s1; cbn [set_need change_proc set_procs s_entries]; rewrite queued_change by reflexivity; exact Q).
    destruct (lk_set_guard s1 c (cat_of s c) y L1 G1) as [L2 G2]. assert (Q2 : queued_of (s_entries (set_guard s1 c (cat_of s c) y)) c = Some false) by (unfold set_guard; rewrite queued_change by reflexivity; exact Q1).
    destruct (ready _ y) eqn:R.
    + destruct (lk_end (Some c) _ c L2) as [L3 G3]; [right; right; eauto|]. apply IH; [exact L3|apply G3; congruence|]. unfold end_guard. rewrite queued_change by reflexivity. now apply queued_release.
    + apply lk_phase; [reflexivity|exact L2|]. intros e E. split; [reflexivity|]. unfold guard_of, queued_of in *. rewrite E in G2, Q2. injection G2 as G2. injection Q2 as Q2. split; [right; exact G2|cbn; rewrite Q2; discriminate].
  - apply lk_phase; [reflexivity|exact L|]. intros e E. split; [reflexivity|]. unfold guard_of, queued_of in *. rewrite E in G, Q. injection G as G. injection Q as Q. split; [exact G|cbn; rewrite Q; discriminate].
Qed.
Lemma not_queued e : phase_ok e -> (forall l, e_phase e <> Queue l) -> e_queued e = false.
Proof. intros [_ B] N. destruct (e_queued e); [|reflexivity]. destruct (B eq_refl) as [l E]. now apply N in E. Qed.
Lemma lk_resume s c : lk None s -> lk None (resume s c).
Proof.
  intros L. unfold resume. destruct (find_entry (s_entries s) c) as [e|] eqn:F; [|exact L]. assert (P : phase_ok e) by (apply (k_ph _ _ L c e); [discriminate|exact F]). pose proof P as [P1 P2].
  destruct (e_phase e) as [l|l|y l|y l|] eqn:E.
  - apply lk_exec; [now apply lk_weaken|unfold guard_of; rewrite F; cbn; now rewrite P1|unfold queued_of; rewrite F; cbn; f_equal; apply not_queued; [exact P|intros l' X; congruence]].
  - assert (L1 : lk (Some c) (change s c (with_queued false))) by (apply lk_change; [reflexivity|now apply lk_weaken|reflexivity|intros e0 N; now contradiction N]).
    assert (G1 : guard_of (s_entries (change s c (with_queued false))) c = Some None) by (rewrite guard_change by reflexivity; unfold guard_of; rewrite F; cbn; now rewrite P1).
    assert (Q1 : queued_of (s_entries (change s c (with_queued false))) c = Some false) by (unfold queued_of; cbn [change set_entries set_cyg set_procs s_entries s_cyg s_next s_procs]; rewrite find_upd, Nat.eqb_refl, F by reflexivity; reflexivity).
    destruct (e_canceled e); [now apply lk_exec|]. destruct (busy _ _); [exact L|now apply lk_start].
  - destruct (ready _ _) eqn:R; [|exact L]. assert (M : may_end s c) by (unfold may_end, guard_of; rewrite F; cbn; destruct P1 as [X|X]; rewrite X; [right; left; reflexivity|right; right; eauto]).
    destruct (lk_end (Some c) s c (lk_weaken _ _ L) M) as [L1 G1]. assert (Gn : guard_of (s_entries s) c <> None) by (unfold guard_of; rewrite F; discriminate). specialize (G1 Gn).
    assert (Q1 : queued_of (s_entries (end_guard s c)) c = Some false). { unfold end_guard. rewrite queued_change by reflexivity. apply queued_release. unfold queued_of. rewrite F. cbn. f_equal. apply not_queued; [exact P|intros l' X; congruence]. }
    apply lk_exec; [apply lk_change; [reflexivity|exact L1|reflexivity|intros e0 N; now contradiction N]|rewrite guard_change by reflexivity; exact G1|rewrite queued_change by reflexivity; exact Q1].
  - destruct (ready _ _) eqn:R; [|exact L]. assert (M : may_end s c) by (unfold may_end, guard_of; rewrite F; cbn; destruct P1 as [X|X]; rewrite X; [right; left; reflexivity|right; right; eauto]).
    destruct (lk_end (Some c) s c (lk_weaken _ _ L) M) as [L1 G1]. assert (Gn : guard_of (s_entries s) c <> None) by (unfold guard_of; rewrite F; discriminate). specialize (G1 Gn).
    apply lk_exec; [exact L1|exact G1|]. unfold end_guard. rewrite queued_change by reflexivity. apply queued_release. unfold queued_of. rewrite F. cbn. f_equal. apply not_queued; [exact P|intros l' X; congruence].
  - exact L.
Qed.
Lemma lk_resumes l : forall s, lk None s -> lk None (fold_left resume l s).
Proof. induction l as [|c l IH]; intros s L; [exact L|]. apply IH, lk_resume, L. Qed.
Lemma lk_remove s c : lk None s -> may_end s c -> lk None (remove_co s c) /\ forall d, may_end s d -> may_end (remove_co s c) d.
Proof.
  intros L M. pose proof (gone_after_release None s c L M) as G. destruct (lk_release None s L) as [L1 _]. unfold remove_co. split.
  - constructor; unfold ids, guard_of; cbn [set_entries s_entries s_cyg s_next].
    + apply nodup_map_filter, (k_ids _ _ L1).
    + pose proof (k_next _ _ L1) as X. rewrite Forall_forall in *. intros z Z. apply X. apply in_map_iff in Z. destruct Z as (e & E1 & E2). apply filter_In in E2. apply in_map_iff. exists e. tauto.
    + intros k d y X. rewrite find_filter. destruct (c =? d) eqn:E; [assert (c = d) as -> by lia; exfalso; now apply (G k y)|]. now apply (k_cyg _ _ L1 k).
    + apply (k_own _ _ L1).
    + intros d e D. rewrite find_filter. destruct (c =? d); [discriminate|]. now apply (k_ph _ _ L1).
  - intros d D. unfold may_end, guard_of in *. cbn [set_entries s_entries s_procs]. rewrite find_filter. destruct (c =? d); [now left|]. rewrite release_procs. fold (guard_of (s_entries (release s)) d). rewrite release_entries. destruct (loop_guard (s_procs s) (s_cyg s) (s_entries s) d) as [E|[E _]]; rewrite E; [exact D|right; now left].
Qed.
Lemma lk_removes l : forall s, lk None s -> (forall c, In c l -> may_end s c) -> lk None (fold_left remove_co l s).
Proof. induction l as [|c l IH]; intros s L M; [exact L|]. cbn [fold_left]. destruct (lk_remove s c L (M c (or_introl eq_refl))) as [L1 M1]. apply IH; [exact L1|]. intros d D. apply M1, M. now right. Qed.
Lemma obsolete_may_end s e : lk None s -> In e (s_entries s) -> obsolete s e = true -> may_end s (e_id e).
Proof.
  intros L X O. pose proof (find_nodup _ e (k_ids _ _ L) X) as F. assert (P : phase_ok e) by (apply (k_ph _ _ L (e_id e) e); [discriminate|exact F]). unfold may_end, guard_of. rewrite F. cbn. unfold obsolete in O. apply Bool.orb_true_iff in O. destruct O as [O|O].
  - right; left. destruct P as [P _]. unfold is_dead in O. destruct (e_phase e); try discriminate. now rewrite P.
  - apply Bool.andb_true_iff in O. destruct O as [_ O]. destruct (e_guard e) as [y|]; [right; right; eauto|right; now left].
Qed.
Lemma lk_pass order s : lk None s -> lk None (pass order s).
Proof.
  intros L. unfold pass, purge. assert (L1 : lk None (fold_left remove_co (map e_id (filter (obsolete s) (s_entries s))) s)). { apply lk_removes; [exact L|]. intros c C. apply in_map_iff in C. destruct C as (e & <- & E). apply filter_In in E. destruct E as [E1 E2]. now apply obsolete_may_end. }
  apply (lk_resumes order) in L1. apply lk_removes; [exact L1|]. intros c C. apply in_map_iff in C. destruct C as (e & <- & E). apply filter_In in E. destruct E as [E1 E2]. apply obsolete_may_end; [exact L1|exact E1|]. unfold obsolete. now rewrite E2.
Qed.
Lemma find_filter_in (P : entry -> bool) l c : (forall e, In e l -> e_id e = c -> P e = true) -> find_entry (filter P l) c = find_entry l c.
Proof. unfold find_entry. induction l as [|e l IH]; intros H; [reflexivity|]. cbn [filter find]. assert (IH' := IH (fun x X => H x (or_intror X))). destruct (e_id e =? c) eqn:E; [rewrite (H e (or_introl eq_refl)) by lia; cbn [find]; now rewrite E|]. destruct (P e); cbn [find]; [rewrite E|]; exact IH'. Qed.
Lemma lk_new_line s : lk None s -> lk None (new_line s).
Proof.
  intros L. constructor; unfold ids, guard_of, new_line; cbn [s_entries s_cyg s_next].
  - apply nodup_map_filter, (k_ids _ _ L).
  - pose proof (k_next _ _ L) as X. rewrite Forall_forall in *. intros z Z. apply X. apply in_map_iff in Z. destruct Z as (e & E1 & E2). apply filter_In in E2. apply in_map_iff. exists e. tauto.
  - intros k c y X. rewrite find_filter_in; [now apply (k_cyg _ _ L k)|]. intros e _ E. apply Bool.orb_true_iff. left. apply existsb_exists. exists (k, c, y). split; [exact X|]. cbn. lia.
  - apply (k_own _ _ L).
  - intros d e D X. pose proof (find_in _ _ _ X) as [X1 X2]. apply filter_In in X1. apply (k_ph _ _ L d e); [discriminate|]. subst d. apply find_nodup; [apply (k_ids _ _ L)|tauto].
Qed.
Lemma lk_create s cat until l : lk None s -> lk None (create cat until l s).
Proof.
  intros L. assert (N : forall c, In c (ids s) -> c <> s_next s). { intros c C. pose proof (k_next _ _ L) as X. rewrite Forall_forall in X. specialize (X c C). lia. }
  assert (FA : forall d, find_entry (s_entries s ++ [mkE (s_next s) cat (s_gen s) until None false false None (Run l)]) d = match find_entry (s_entries s) d with Some e => Some e | None => if s_next s =? d then Some (mkE (s_next s) cat (s_gen s) until None false false None (Run l)) else None end).
  { intros d. unfold find_entry. clear. induction (s_entries s) as [|e m IH]; [reflexivity|]. cbn [app find]. destruct (e_id e =? d); [reflexivity|exact IH]. }
  constructor; unfold ids, guard_of, create; cbn [s_entries s_cyg s_next].
  - rewrite map_app. cbn [map e_id]. apply (Permutation_NoDup (Permutation_cons_append (map e_id (s_entries s)) (s_next s))). constructor; [intros X; now apply (N (s_next s))|apply (k_ids _ _ L)].
  - rewrite map_app. apply Forall_app. split; [|constructor; [cbn; lia|constructor]]. eapply Forall_impl; [|apply (k_next _ _ L)]. cbn. intros. lia.
  - intros k c y X. rewrite FA. pose proof (k_cyg _ _ L k c y X) as G. unfold guard_of in G. destruct (find_entry (s_entries s) c); [exact G|discriminate].
  - apply (k_own _ _ L).
  - intros d e D. rewrite FA. destruct (find_entry (s_entries s) d) as [e0|] eqn:E; [intros X; injection X as <-; now apply (k_ph _ _ L d e0)|]. destruct (s_next s =? d); [|discriminate]. intros X. injection X as <-. split; [reflexivity|discriminate].
Qed.
Lemma lk_idle s b : lk None s -> lk None (set_idle s b).
Proof. intros L. constructor; [apply (k_ids _ _ L)|apply (k_next _ _ L)|apply (k_cyg _ _ L)|apply (k_own _ _ L)|apply (k_ph _ _ L)]. Qed.
Definition no_remove (e : event) : Prop := match e with ERemove _ => False | _ => True end.
Lemma lk_step s e s' : lk None s -> no_remove e -> step s e s' -> lk None s'.
Proof.
  intros L N St. destruct St as [cat until l| |c|c|y p A B|y p A B C| |order I1 P|order D P].
  - now apply lk_create.
  - now apply lk_new_line.
  - apply lk_change; [reflexivity|exact L|reflexivity|]. intros e _ E. exact (k_ph _ _ L c e ltac:(discriminate) E).
  - destruct N.
  - now apply lk_procs.
  - apply lk_idle. now apply lk_procs.
  - now apply lk_release.
  - apply lk_pass. now apply lk_idle.
  - apply lk_pass. now apply lk_release.
Qed.
Lemma lk_run s l s' : run s l s' -> lk None s -> Forall no_remove l -> lk None s'.
Proof. induction 1 as [|s e s1 l s2 A R IH]; intros L F; [exact L|]. inversion F; subst. apply IH; [|assumption]. now apply (lk_step s e). Qed.
Lemma lk_init : lk None init.
Proof. constructor; cbn; [constructor|constructor|contradiction|constructor|discriminate]. Qed.
