(** Flags may be left out, in argmatchers linked in any way. *)
From Verif Require Import Base ArModel ArProperties.
Open Scope nat_scope.

Section Flags.
Variable env : nat -> matcher.
(** all argmatchers with flags have the same prefixes, and none has nofiles *)
Definition uniform : Prop := exists P, forall m, m_nofiles (env m) = false /\ m_prefix (env m) = match m_flags (env m) with Some _ => P | None => [] end.
(** reading may go on in this frame *)
Definition stops (f : frame) : bool :=
  match loop_of env (f_cur f) with Some _ => true | None => (f_idx f <=? length (args_of env (f_cur f))) || ((length (args_of env (f_cur f)) =? 0) && has_flags env (f_cur f) && (f_idx f =? 1)) end.
Fixpoint settle (top : frame) (st : list frame) : reader := match st with [] => mkR top [] | f :: s => if stops top then mkR top st else settle f s end.
Definition settle_if (nf : bool) (r : reader) : reader := if nf then r else settle (r_top r) (r_stack r).
Definition good (f : frame) : Prop := 1 <= f_idx f \/ loop_of env (f_cur f) <> None.
Definition all_good (r : reader) : Prop := Forall good (r_top r :: r_stack r).
Hypothesis U : uniform.

Lemma nofiles_none c : nofiles_of env c = false.
Proof. destruct U as [P H]. destruct c as [m|m]; [apply (H m)|reflexivity]. Qed.
Lemma pop_false s : forall top f, pop_loop env false top (f :: s) = (true, settle f s).
Proof.
  induction s as [|g s IH]; intros top f; cbn [pop_loop settle]; rewrite nofiles_none.
  - cbn [andb orb]. destruct (loop_of env (f_cur f)); [reflexivity|]. destruct (_ <=? _); [reflexivity|]. destruct (_ && _); reflexivity.
  - unfold stops. cbn [andb orb]. destruct (loop_of env (f_cur f)); [reflexivity|]. destruct (_ <=? _); [reflexivity|]. cbn [orb]. destruct (_ && _); [reflexivity|]. apply (IH f g).
Qed.
Lemma pop_flags top f s : has_flags env (f_cur f) = true -> pop_loop env true top (f :: s) = (true, mkR f s).
Proof. intros H. cbn [pop_loop]. rewrite nofiles_none, H. cbn [andb]. now destruct (loop_of env (f_cur f)). Qed.
Lemma settle_stops f s : stops f = true -> settle f s = mkR f s.
Proof. intros H. destruct s; [reflexivity|]. cbn [settle]. now rewrite H. Qed.
Definition next_idx (r : reader) : nat :=
  let t := r_top r in if length (args_of env (f_cur t)) <? S (f_idx t) then match loop_of env (f_cur t) with Some l => Nat.min (Nat.max l 1) (length (args_of env (f_cur t))) | None => S (f_idx t) end else S (f_idx t).
Lemma advance_settles nf r : good (r_top r) -> advance env false nf r = settle_if nf (set_idx r (next_idx r)).
Proof.
  intros G. unfold advance, next_idx, settle_if. cbv zeta. set (k := length (args_of env (f_cur (r_top r)))). destruct (k <? S (f_idx (r_top r))) eqn:E.
  - destruct (loop_of env (f_cur (r_top r))) as [l|] eqn:L; [destruct nf; [reflexivity|]; unfold set_idx; cbn [r_top r_stack]; rewrite settle_stops; [reflexivity|]; unfold stops; cbn [f_cur]; now rewrite L|].
    destruct nf; [reflexivity|]. unfold pop. destruct (r_stack r) as [|f s] eqn:S1; [unfold set_idx; rewrite S1; reflexivity|]. rewrite pop_false. unfold set_idx. rewrite S1. cbn [r_top r_stack settle]. unfold stops. cbn [f_cur f_idx]. rewrite L. apply Nat.ltb_lt in E. fold k. replace (S (f_idx (r_top r)) <=? k) with false by (symmetry; apply Nat.leb_gt; lia). destruct G as [G|G]; [|congruence]. replace (S (f_idx (r_top r)) =? 1) with false by (symmetry; apply Nat.eqb_neq; lia). rewrite Bool.andb_false_r. reflexivity.
  - destruct nf; [reflexivity|]. unfold set_idx. cbn [r_top r_stack]. rewrite settle_stops; [reflexivity|]. unfold stops. cbn [f_cur f_idx]. destruct (loop_of env (f_cur (r_top r))); [reflexivity|]. fold k. apply Nat.ltb_ge in E. replace (S (f_idx (r_top r)) <=? k) with true by (symmetry; apply Nat.leb_le; lia). reflexivity.
Qed.
(** what a word that is no flag does *)
Definition looks (r : reader) (next : text) (last : bool) : bool :=
  m_anywhere (env (f_real (r_top r))) && negb (f_noflags (r_top r)) && is_flag_word env (f_cur (r_top r)) next && (long next || last).
Definition moved (r : reader) : reader := let r1 := if m_anywhere (env (f_real (r_top r))) then r else set_noflags r in set_idx r1 (next_idx r1).
Definition linked (r : reader) (w : text) : option nat := match arg_at env (f_cur (r_top r)) (f_idx (r_top r)) with Some l => lookup l w | None => None end.
Definition maybe_push (r : reader) (o : option nat) : reader := match o with Some l => push r (Main l) l | None => r end.
Lemma update_argument r w next last : good (r_top r) -> is_flag_here env r w = false -> update env r w next last = maybe_push (settle_if (looks r next last) (moved r)) (linked r w).
Proof.
  intros G F. unfold update, linked, moved, looks. rewrite F. cbn [negb andb]. destruct (m_anywhere (env (f_real (r_top r)))); cbn [negb andb].
  - rewrite advance_settles by exact G. destruct (arg_at env (f_cur (r_top r)) (f_idx (r_top r))); [|reflexivity]. destruct (lookup l w); reflexivity.
  - rewrite advance_settles by exact G. unfold set_noflags at 1 2. cbn [r_top f_cur f_idx]. destruct (arg_at env (f_cur (r_top r)) (f_idx (r_top r))); [|reflexivity]. destruct (lookup l w); reflexivity.
Qed.
(** what a flag does *)
Definition ended (r : reader) (w : text) : reader := if is_end env (f_cur (r_top r)) w then set_noflags r else r.
Lemma update_flag r w next last m fl : f_cur (r_top r) = Main m -> m_flags (env m) = Some fl -> is_flag_here env r w = true ->
  update env r w next last = match lookup fl w with
  | Some l => push (mkR (mkF (Flags m) 2 m false) (r_top (ended r w) :: r_stack (ended r w))) (Main l) l
  | None => settle_if (is_flag_word env (Main m) next && (long next || last)) (ended r w)
  end.
Proof.
  intros C Fl F. unfold update. rewrite F. fold (ended r w). rewrite C. cbn [main_of negb andb]. set (r0 := ended r w). assert (C0 : f_cur (r_top r0) = Main m) by (unfold r0, ended; destruct (is_end _ _ _); exact C).
  change (push r0 (Flags m) m) with (mkR (mkF (Flags m) 1 m false) (r_top r0 :: r_stack r0)). cbn [r_top f_noflags f_cur f_idx f_real negb andb]. assert (A1 : arg_at env (Flags m) 1 = Some fl) by (unfold arg_at, args_of; now rewrite Fl). rewrite A1.
  set (nf := is_flag_word env (Main m) next && (long next || last)). clearbody nf. assert (A2 : advance env true nf (mkR (mkF (Flags m) 1 m false) (r_top r0 :: r_stack r0)) = mkR (mkF (Flags m) 2 m false) (r_top r0 :: r_stack r0)). { unfold advance. cbn [r_top f_idx f_cur args_of loop_of]. rewrite Fl. reflexivity. }
  rewrite A2. destruct (lookup fl w); [reflexivity|]. unfold pop. cbn [r_stack r_top]. unfold settle_if. destruct nf.
  - rewrite pop_flags by (rewrite C0; unfold has_flags; cbn [flags_of]; now rewrite Fl). cbn [snd]. destruct r0; reflexivity.
  - rewrite pop_false. reflexivity.
Qed.
Lemma flag_cursor r w : is_flag_here env r w = true -> exists m fl, f_cur (r_top r) = Main m /\ m_flags (env m) = Some fl.
Proof.
  unfold is_flag_here. intros H. apply Bool.andb_true_iff in H. destruct H as [H _]. apply Bool.andb_true_iff in H. destruct H as [_ H]. unfold has_flags in H. destruct (f_cur (r_top r)) as [m|m]; [|discriminate]. cbn [flags_of] in H. destruct (m_flags (env m)) as [fl|] eqn:E; [|discriminate]. now exists m, fl.
Qed.
(** frames that reading never goes on in do not matter *)
Fixpoint kept (st : list frame) : list frame := match st with [] => [] | f :: s => match s with [] => [f] | _ => if stops f then f :: kept s else kept s end end.
Definition same (r r' : reader) : Prop := r_top r = r_top r' /\ kept (r_stack r) = kept (r_stack r').
Lemma kept_cons f s s' : kept s = kept s' -> kept (f :: s) = kept (f :: s').
Proof.
  intros H. assert (N : forall l, kept l = [] -> l = []). { clear. intros l. induction l as [|x l IH]; [reflexivity|]. cbn [kept]. destruct l as [|y l]; [discriminate|]. destruct (stops x); [discriminate|]. intros X. specialize (IH X). discriminate. }
  destruct s as [|x s], s' as [|y s']; [reflexivity|symmetry in H; apply N in H; discriminate|apply N in H; discriminate|]. change (kept (f :: x :: s)) with (if stops f then f :: kept (x :: s) else kept (x :: s)). change (kept (f :: y :: s')) with (if stops f then f :: kept (y :: s') else kept (y :: s')). now rewrite H.
Qed.
Lemma settle_kept s : forall f, kept (f :: s) = match kept (r_stack (settle f s)) with l => r_top (settle f s) :: l end.
Proof.
  induction s as [|g s IH]; intros f; [reflexivity|]. change (kept (f :: g :: s)) with (if stops f then f :: kept (g :: s) else kept (g :: s)). cbn [settle]. destruct (stops f); [reflexivity|apply IH].
Qed.
Lemma settle_same f s f' s' : kept (f :: s) = kept (f' :: s') -> same (settle f s) (settle f' s').
Proof. rewrite !settle_kept. intros H. injection H as A B. split; assumption. Qed.
Lemma settle_again r : settle (r_top (settle (r_top r) (r_stack r))) (r_stack (settle (r_top r) (r_stack r))) = settle (r_top r) (r_stack r).
Proof. destruct r as [f s]. cbn [r_top r_stack]. revert f. induction s as [|g s IH]; intros f; [reflexivity|]. cbn [settle]. destruct (stops f) eqn:E; [cbn [r_top r_stack settle]; now rewrite E|apply IH]. Qed.
Lemma same_settle_if nf r r' : same r r' -> same (settle_if nf r) (settle_if nf r').
Proof. intros [A B]. unfold settle_if. destruct nf; [split; assumption|]. apply settle_same. rewrite A. now apply kept_cons. Qed.
Lemma settle_push nf r c real : same (push (settle_if nf r) c real) (push r c real).
Proof.
  unfold settle_if. destruct nf; [split; reflexivity|]. split; [reflexivity|]. cbn [push r_stack]. destruct r as [f s]. cbn [r_top r_stack]. revert f. induction s as [|g s IH]; intros f; [reflexivity|]. cbn [settle]. destruct (stops f) eqn:E; [reflexivity|]. rewrite (IH g). change (kept (f :: g :: s)) with (if stops f then f :: kept (g :: s) else kept (g :: s)). now rewrite E.
Qed.
Lemma same_push r r' c real : same r r' -> same (push r c real) (push r' c real).
Proof. intros [A B]. split; [reflexivity|]. cbn [push r_stack]. rewrite A. now apply kept_cons. Qed.
Lemma same_trans a b c : same a b -> same b c -> same a c.
Proof. intros [A B] [A2 B2]. split; congruence. Qed.
Lemma same_sym a b : same a b -> same b a.
Proof. intros [A B]. split; congruence. Qed.
Lemma same_moved r r' : same r r' -> same (moved r) (moved r').
Proof. intros [A B]. unfold moved, next_idx. rewrite A. destruct (m_anywhere _); (split; [cbn [set_idx set_noflags r_top]; now rewrite ?A|exact B]). Qed.
Lemma same_update r r' w next last : all_good r -> all_good r' -> same r r' -> same (update env r w next last) (update env r' w next last).
Proof.
  intros G G' H. assert (H' := H). destruct H' as [A B]. assert (F : is_flag_here env r w = is_flag_here env r' w) by (unfold is_flag_here; now rewrite A). destruct (is_flag_here env r' w) eqn:E.
  - destruct (flag_cursor r' w E) as (m & fl & C & Fl). rewrite (update_flag r' w next last m fl C Fl E). rewrite (update_flag r w next last m fl) by (rewrite ?A; assumption). assert (HE : same (ended r w) (ended r' w)) by (unfold ended; rewrite A; destruct (is_end _ _ _); [split; [cbn [set_noflags r_top]; now rewrite A|exact B]|exact H]).
    destruct (lookup fl w); [|now apply same_settle_if]. apply same_push. split; [reflexivity|]. cbn [r_stack]. destruct HE as [-> HE]. now apply kept_cons.
  - rewrite !update_argument; [|inversion G'; assumption|exact E|inversion G; assumption|exact F]. unfold looks, linked. rewrite A. pose proof (same_moved r r' H) as M. apply (same_settle_if (m_anywhere (env (f_real (r_top r'))) && negb (f_noflags (r_top r')) && is_flag_word env (f_cur (r_top r')) next && (long next || last))) in M. destruct (match arg_at env (f_cur (r_top r')) (f_idx (r_top r')) with Some l => lookup l w | None => None end); [now apply same_push|exact M].
Qed.
(** indices are never 0, but in empty loops *)
Lemma settle_good f s : Forall good (f :: s) -> all_good (settle f s).
Proof. revert f. induction s as [|g s IH]; intros f H; [exact H|]. cbn [settle]. destruct (stops f); [exact H|]. apply IH. now inversion H. Qed.
Lemma settle_if_good nf r : all_good r -> all_good (settle_if nf r).
Proof. intros H. unfold settle_if. destruct nf; [exact H|now apply settle_good]. Qed.
Lemma push_good r l : all_good r -> all_good (push r (Main l) l).
Proof. intros H. constructor; [left; cbn; lia|exact H]. Qed.
Lemma moved_good r : all_good r -> all_good (moved r).
Proof.
  intros H. inversion H as [|x y G1 G2]; subst. unfold moved. assert (X : forall r1, f_cur (r_top r1) = f_cur (r_top r) -> f_idx (r_top r1) = f_idx (r_top r) -> r_stack r1 = r_stack r -> all_good (set_idx r1 (next_idx r1))). { intros r1 A B C. constructor; [|cbn [set_idx r_stack]; now rewrite C]. unfold good, next_idx, set_idx. cbn [r_top f_idx f_cur]. cbv zeta. destruct (_ <? _); [|left; lia]. destruct (loop_of env (f_cur (r_top r1))) eqn:L; [right; discriminate|left; lia]. }
  destruct (m_anywhere _); apply X; reflexivity.
Qed.
Lemma update_good r w next last : all_good r -> all_good (update env r w next last).
Proof.
  intros H. destruct (is_flag_here env r w) eqn:E.
  - destruct (flag_cursor r w E) as (m & fl & C & Fl). rewrite (update_flag r w next last m fl C Fl E). assert (HE : all_good (ended r w)). { unfold ended. destruct (is_end _ _ _); [|exact H]. inversion H as [|x y G1 G2]; subst. constructor; [exact G1|exact G2]. }
    destruct (lookup fl w); [|now apply settle_if_good]. apply push_good. constructor; [left; cbn; lia|exact HE].
  - rewrite update_argument; [|inversion H; assumption|exact E]. unfold maybe_push. pose proof (settle_if_good (looks r next last) _ (moved_good r H)) as X. destruct (linked r w); [now apply push_good|exact X].
Qed.
Lemma same_read ws : forall r r' e, all_good r -> all_good r' -> same r r' -> same (read env r ws e) (read env r' ws e).
Proof. induction ws as [|w ws IH]; intros r r' e G G' H; [exact H|]. cbn [read]. apply IH; [now apply update_good|now apply update_good|now apply same_update]. Qed.

(** a flag that leads nowhere *)
Definition plain_flag (r : reader) (f : text) : Prop := is_flag_here env r f = true /\ forall m fl, f_cur (r_top r) = Main m -> m_flags (env m) = Some fl -> lookup fl f = None /\ is_end env (Main m) f = false.
Lemma flag_step r f next last : plain_flag r f -> update env r f next last = settle_if (is_flag_word env (f_cur (r_top r)) next && (long next || last)) r.
Proof.
  intros [E H]. destruct (flag_cursor r f E) as (m & fl & C & Fl). destruct (H m fl C Fl) as [L N]. rewrite (update_flag r f next last m fl C Fl E), L. unfold ended. now rewrite C, N.
Qed.
Lemma flag_word_uniform P c : (forall m, m_nofiles (env m) = false /\ m_prefix (env m) = match m_flags (env m) with Some _ => P | None => [] end) -> has_flags env c = true -> forall w, is_flag_word env c w = match w with x :: _ => existsb (N.eqb x) P | [] => false end.
Proof. intros H F w. unfold has_flags in F. destruct c as [m|m]; [|discriminate]. cbn [flags_of] in F. unfold is_flag_word. destruct (H m) as [_ ->]. destruct (m_flags (env m)); [now destruct w|discriminate]. Qed.
(** skipping it after the word [v] *)
Lemma skip_flag r v f w last : all_good r -> plain_flag (update env r v f false) f -> same (update env (update env r v f false) f w last) (update env r v w last).
Proof.
  intros G PF. pose proof PF as [E _]. rewrite (flag_step _ f w last PF). destruct (flag_cursor _ _ E) as (t & fl & C & Fl). destruct U as [P UP].
  assert (HF : has_flags env (Main t) = true) by (unfold has_flags; cbn [flags_of]; now rewrite Fl). assert (E2 := E). unfold is_flag_here in E2. rewrite C in E2. apply Bool.andb_true_iff in E2. destruct E2 as [E2 Lf]. apply Bool.andb_true_iff in E2. destruct E2 as [E2 _]. apply Bool.andb_true_iff in E2. destruct E2 as [Nf E2]. rewrite (flag_word_uniform P (Main t) UP HF) in E2.
  rewrite C. destruct (is_flag_here env r v) eqn:Fv.
  - destruct (flag_cursor r v Fv) as (m & flm & Cm & Flm). rewrite (update_flag r v f false m flm Cm Flm Fv) in C, Nf |- *. rewrite (update_flag r v w last m flm Cm Flm Fv). destruct (lookup flm v) as [l|].
    + cbn [push r_top f_cur] in C. injection C as ->. unfold settle_if. destruct (_ && _); [split; reflexivity|]. rewrite settle_stops; [split; reflexivity|]. unfold stops. cbn [push r_top f_cur f_idx loop_of args_of]. destruct (m_loop (env t)); [reflexivity|]. rewrite HF. destruct (length (m_slots (env t))) eqn:LL; [reflexivity|reflexivity].
    + assert (HFm : has_flags env (Main m) = true) by (unfold has_flags; cbn [flags_of]; now rewrite Flm). rewrite (flag_word_uniform P (Main m) UP HFm f), E2, Lf in C, Nf |- *. cbn [andb orb settle_if] in C, Nf |- *. assert (C2 : f_cur (r_top (ended r v)) = Main m) by (unfold ended; destruct (is_end _ _ _); exact Cm). rewrite C2 in C. injection C as ->. split; reflexivity.
  - rewrite (update_argument r v f false) in C, Nf |- *; [|inversion G; assumption|exact Fv|inversion G; assumption|exact Fv|inversion G; assumption|exact Fv]. rewrite (update_argument r v w last); [|inversion G; assumption|exact Fv].
    destruct (linked r v) as [l|]; cbn [maybe_push] in *.
    + cbn [push r_top f_cur] in C. injection C as ->. apply same_trans with (push (settle_if (looks r f false) (moved r)) (Main t) t).
      * unfold settle_if at 1. destruct (_ && _); [split; reflexivity|]. rewrite settle_stops; [split; reflexivity|]. unfold stops. cbn [push r_top f_cur f_idx loop_of args_of]. destruct (m_loop (env t)); [reflexivity|]. rewrite HF. destruct (length (m_slots (env t))) eqn:LL; reflexivity.
      * apply same_trans with (push (moved r) (Main t) t); [apply settle_push|apply same_sym, settle_push].
    + destruct (looks r f false) eqn:Lk.
      * cbn [settle_if] in C, Nf |- *. assert (Cm : f_cur (r_top (moved r)) = f_cur (r_top r)) by (unfold moved; destruct (m_anywhere _); reflexivity). rewrite Cm in C. unfold looks in Lk |- *. rewrite C in Lk |- *. apply Bool.andb_true_iff in Lk. destruct Lk as [Lk _]. apply Bool.andb_true_iff in Lk. destruct Lk as [Lk _]. rewrite Lk. cbn [andb]. split; reflexivity.
      * assert (Lw : looks r w last = false). { unfold looks in Lk |- *. rewrite Lf in Lk. cbn [orb] in Lk. rewrite Bool.andb_true_r in Lk. apply Bool.andb_false_iff in Lk. destruct Lk as [-> |Lk]; [reflexivity|]. assert (is_flag_word env (f_cur (r_top r)) w = false) as ->; [|now rewrite Bool.andb_false_r]. destruct (has_flags env (f_cur (r_top r))) eqn:HFr; [rewrite (flag_word_uniform P _ UP HFr), E2 in Lk; discriminate|]. unfold has_flags in HFr. destruct (f_cur (r_top r)) as [m|m]; [|now destruct w]. cbn [flags_of] in HFr. unfold is_flag_word. destruct (UP m) as [_ ->]. destruct (m_flags (env m)); [discriminate|]. now destruct w. }
        rewrite Lw. cbn [settle_if]. unfold settle_if. destruct (_ && _); [split; reflexivity|]. rewrite settle_again. split; reflexivity.
Qed.
Lemma update_last r w f l : long f = true -> update env r w f l = update env r w f false.
Proof. intros L. unfold update. now rewrite L. Qed.
Lemma skip_read a : forall r f b e, all_good r -> a <> [] -> long f = true -> plain_flag (read env r a f) f -> same (read env r (a ++ f :: b) e) (read env r (a ++ b) e).
Proof.
  induction a as [|v a IH]; intros r f b e G N L PF; [congruence|]. destruct a as [|v2 a].
  - cbn [app read] in *. rewrite (update_last r v f true L) in PF. apply same_read; [now apply update_good, update_good|now apply update_good|]. now apply skip_flag.
  - change (read env r (v :: v2 :: a) f) with (read env (update env r v v2 false) (v2 :: a) f) in PF. apply (IH (update env r v v2 false) f b e); [now apply update_good|discriminate|exact L|exact PF].
Qed.
End Flags.

(** A flag of two characters or more, where the flags of [m] are offered for it, that leads nowhere and is not the end of flags, may be left out,
    however the argmatchers are linked, if all that have flags have the same prefixes and none has nofiles. *)
Theorem flag_left_out_partial : forall env root a f b e m fl, uniform env -> generate env root a f = OFlags m -> 2 <= length (w_text f) -> m_flags (env m) = Some fl -> lookup fl (w_text f) = None -> m_end (env m) <> Some (w_text f) ->
  generate env root (a ++ f :: b) e = generate env root (a ++ b) e.
Proof.
  intros env root a f b e m fl Un Of Lf Fl Lk Ne. unfold generate in *. rewrite !map_app. cbn [map]. set (ta := map w_text a) in *. set (tb := map w_text b). set (tf := w_text f) in *.
  assert (L : long tf = true) by (unfold long; apply Nat.leb_le; exact Lf). assert (G0 : all_good env (start root)) by (constructor; [left; cbn; lia|constructor]).
  assert (PF : plain_flag env (read env (start root) ta tf) tf). { set (r := read env (start root) ta tf) in *. unfold offered in Of. fold tf in Of. destruct (w_redir f); [discriminate|]. destruct (negb (f_noflags (r_top r)) && has_flags env (f_cur (r_top r)) && is_flag_word env (f_cur (r_top r)) tf) eqn:E.
    - apply Bool.andb_true_iff in E. destruct E as [E E3]. apply Bool.andb_true_iff in E. destruct E as [E1 E2]. split; [unfold is_flag_here; now rewrite E1, E2, E3, L|]. intros m2 fl2 C F2. rewrite C in Of. cbn [main_of] in Of. injection Of as ->. rewrite Fl in F2. injection F2 as <-. split; [exact Lk|]. unfold is_end. destruct (m_end (env m)) as [x|] eqn:Em; [|reflexivity]. destruct (text_eqb tf x) eqn:T; [|reflexivity]. exfalso. apply Ne. f_equal. clear - T. revert x T. induction tf as [|c t IH]; intros [|y x] T; [reflexivity|discriminate|discriminate|]. cbn [text_eqb] in T. apply Bool.andb_true_iff in T. destruct T as [T1 T2]. apply N.eqb_eq in T1. subst y. f_equal. now apply IH.
    - destruct (arg_at _ _ _); [discriminate|]. destruct (_ || _); discriminate. }
  assert (S1 : same env (read env (start root) (ta ++ tf :: tb) (w_text e)) (read env (start root) (ta ++ tb) (w_text e))).
  { destruct ta as [|v ta]; [|apply skip_read; [exact Un|exact G0|discriminate|exact L|exact PF]]. cbn [app read] in *. rewrite (flag_step env Un (start root) tf _ _ PF). assert (X : forall nf, settle_if env nf (start root) = start root) by (intros []; reflexivity). rewrite X. split; reflexivity. }
  unfold offered. destruct S1 as [-> _]. reflexivity.
Qed.
Print Assumptions flag_left_out_partial.
(** root: a leads to 1 (two slots, flags -x, z in the second leads to 2) *)
Definition forest (m : nat) : matcher :=
  match m with 0 => mkM [[([97%N], 1)]; []] (Some []) [45%N] None false true None | 1 => mkM [[]; [([122%N], 2)]] (Some []) [45%N] None false true None | _ => mkM [[]] None [] None false true None end.
Example flag_left_out_example : uniform forest /\ generate forest 0 (map W [[97]; [121]]%N) (W [45; 120]%N) = OFlags 1 /\
  generate forest 0 (map W [[97]; [121]; [45; 120]; [122]; [98]]%N) (W []) = OSlot 0 2 /\ generate forest 0 (map W [[97]; [121]; [122]; [98]]%N) (W []) = OSlot 0 2.
Proof. split; [exists [45%N]; intros [|[|m]]; split; reflexivity|]. split; [vm_compute; reflexivity|]. split; vm_compute; reflexivity. Qed.
(** with different prefixes a flag can matter: after it the flags of the argmatcher that was through are not offered any more *)
Definition two_prefixes (m : nat) : matcher :=
  match m with 0 => mkM [[([97%N], 1)]; []] (Some []) [47%N] None false true None | _ => mkM [[]] (Some []) [45%N] None false true None end.
Theorem flag_left_out_refuted : exists env root a f b e m fl, generate env root a f = OFlags m /\ 2 <= length (w_text f) /\ m_flags (env m) = Some fl /\ lookup fl (w_text f) = None /\ m_end (env m) <> Some (w_text f) /\ (forall i, m_nofiles (env i) = false) /\
  generate env root (a ++ f :: b) e <> generate env root (a ++ b) e.
Proof.
  exists two_prefixes, 0, (map W [[97]; [121]]%N), (W [47; 120]%N), [], (W [45%N]), 0, []. split; [vm_compute; reflexivity|]. split; [cbn; lia|]. split; [reflexivity|]. split; [reflexivity|]. split; [discriminate|]. split; [intros [|i]; reflexivity|]. vm_compute. discriminate.
Qed.
Print Assumptions flag_left_out_refuted.
