(** Argmatchers: which slot the words of a line belong to, and where linked argmatchers lead. *)
From Verif Require Import Base ArModel.
Open Scope nat_scope.

(** ** C105: slots *)
(** a word that looks like a flag of [m] *)
Definition flag_shaped (m : matcher) (w : text) : bool :=
  match m_flags m, w with Some _, x :: _ => existsb (N.eqb x) (m_prefix m) | _, _ => false end.
(** how many words were arguments, and whether flags are over: after the end of flags, or after the first argument if flags may not come anywhere *)
Fixpoint arguments (m : matcher) (over : bool) (n : nat) (ws : list text) : nat * bool :=
  match ws with
  | [] => (n, over)
  | w :: r =>
      if negb over && flag_shaped m w && (1 <? length w) then arguments m (match m_end m with Some e => text_eqb w e | None => false end) n r
      else arguments m (over || negb (m_anywhere m)) (S n) r
  end.
(** the slot after [n] arguments: 1, 2, ..., k and then, if it loops, from the slot asked for to k again and again *)
Definition loop_start (m : matcher) : option nat := match m_loop m with Some l => Some (Nat.max 1 (Nat.min l (length (m_slots m)))) | None => None end.
Definition slot_after (m : matcher) (n : nat) : option nat :=
  let k := length (m_slots m) in
  if n <? k then Some (S n) else if k =? 0 then None else match loop_start m with Some a => Some (a + (n - k) mod (k - a + 1)) | None => None end.
Definition expected (id : nat) (m : matcher) (n : nat) (over : bool) (w : word) : offer :=
  if w_redir w then OFiles
  else if negb over && flag_shaped m (w_text w) then OFlags id
  else match slot_after m n with
  | Some i => OSlot id i
  | None => if m_nofiles m then ONothing else match m_slots m, m_flags m with [], None => ONothing | _, _ => OFiles end
  end.
(** none of the words leads to another argmatcher *)
Definition no_links (m : matcher) (ws : list text) : Prop := forall l w, (In l (m_slots m) \/ m_flags m = Some l) -> In w ws -> lookup l w = None.

Lemma succ_mod x p : 0 < p -> S x mod p = if x mod p =? p - 1 then 0 else S (x mod p).
Proof.
  intros P. pose proof (Nat.mod_upper_bound x p ltac:(lia)) as B. pose proof (Nat.div_mod x p ltac:(lia)) as D. destruct (x mod p =? p - 1) eqn:E.
  - apply Nat.eqb_eq in E. symmetry. apply (Nat.mod_unique (S x) p (S (x / p)) 0); [lia|]. rewrite Nat.mul_succ_r. lia.
  - apply Nat.eqb_neq in E. symmetry. apply (Nat.mod_unique (S x) p (x / p) (S (x mod p))); [lia|]. lia.
Qed.
(** _arg_index after [n] arguments *)
Definition index_after (m : matcher) (n : nat) : nat :=
  let k := length (m_slots m) in
  if n <? k then S n else match m_loop m with None => S n | Some l => if k =? 0 then (if n =? 0 then 1 else 0) else let a := Nat.min (Nat.max l 1) k in a + (n - k) mod (k - a + 1) end.
Lemma index_step m n : index_after m (S n) = let i := index_after m n in let k := length (m_slots m) in
  if k <? S i then match m_loop m with Some l => Nat.min (Nat.max l 1) k | None => S i end else S i.
Proof.
  unfold index_after. cbv zeta. set (k := length (m_slots m)). destruct (n <? k) eqn:N.
  - apply Nat.ltb_lt in N. destruct (S n <? k) eqn:N2; [apply Nat.ltb_lt in N2; replace (k <? S (S n)) with false by (symmetry; apply Nat.ltb_ge; lia); reflexivity|]. apply Nat.ltb_ge in N2. replace (k <? S (S n)) with true by (symmetry; apply Nat.ltb_lt; lia). destruct (m_loop m) as [l|]; [|reflexivity]. replace (k =? 0) with false by (symmetry; apply Nat.eqb_neq; lia). replace (S n - k) with 0 by lia. rewrite Nat.mod_0_l by lia. lia.
  - apply Nat.ltb_ge in N. replace (S n <? k) with false by (symmetry; apply Nat.ltb_ge; lia). destruct (m_loop m) as [l|]; [|replace (k <? S (S n)) with true by (symmetry; apply Nat.ltb_lt; lia); reflexivity].
    destruct (k =? 0) eqn:K; [apply Nat.eqb_eq in K; rewrite K; rewrite Nat.min_0_r; destruct n; reflexivity|]. apply Nat.eqb_neq in K. set (a := Nat.min (Nat.max l 1) k). assert (A : 1 <= a <= k) by (unfold a; lia). rewrite Nat.sub_succ_l by exact N. rewrite succ_mod by lia. pose proof (Nat.mod_upper_bound (n - k) (k - a + 1) ltac:(lia)) as B. destruct ((n - k) mod (k - a + 1) =? k - a + 1 - 1) eqn:E.
    + apply Nat.eqb_eq in E. replace (k <? S (a + (n - k) mod (k - a + 1))) with true by (symmetry; apply Nat.ltb_lt; lia). lia.
    + apply Nat.eqb_neq in E. replace (k <? S (a + (n - k) mod (k - a + 1))) with false by (symmetry; apply Nat.ltb_ge; lia). lia.
Qed.
Lemma arg_at_index (env : nat -> matcher) id n : arg_at env (Main id) (index_after (env id) n) = match slot_after (env id) n with Some i => nth_error (m_slots (env id)) (i - 1) | None => None end.
Proof.
  unfold slot_after, index_after, loop_start. cbv zeta. set (k := length (m_slots (env id))). destruct (n <? k) eqn:E; [cbn; f_equal; lia|]. apply Nat.ltb_ge in E. destruct (k =? 0) eqn:K.
  - apply Nat.eqb_eq in K. assert (Z : m_slots (env id) = []) by (destruct (m_slots (env id)); [reflexivity|discriminate]). unfold arg_at. cbn [args_of]. rewrite Z. destruct (m_loop (env id)); [destruct (n =? 0); reflexivity|]. now destruct n.
  - apply Nat.eqb_neq in K. destruct (m_loop (env id)) as [l|].
    + replace (Nat.max 1 (Nat.min l k)) with (Nat.min (Nat.max l 1) k) by lia. set (a := Nat.min (Nat.max l 1) k). assert (1 <= a) by (unfold a; lia). destruct (a + (n - k) mod (k - a + 1)) as [|j] eqn:J; [lia|]. cbn [arg_at args_of]. f_equal. lia.
    + cbn [arg_at args_of]. apply nth_error_None. fold k. lia.
Qed.
Lemma slot_after_bound m n i : slot_after m n = Some i -> 1 <= i <= length (m_slots m).
Proof.
  unfold slot_after, loop_start. cbv zeta. set (k := length (m_slots m)). destruct (n <? k) eqn:E; [apply Nat.ltb_lt in E; intros X; injection X as <-; lia|]. destruct (k =? 0) eqn:K; [discriminate|]. apply Nat.eqb_neq in K. destruct (m_loop m) as [l|]; [|discriminate]. set (a := Nat.max 1 (Nat.min l k)). assert (1 <= a <= k) by (unfold a; lia). clearbody a. intros X. injection X as <-. assert (U : (n - k) mod (k - a + 1) < k - a + 1) by (apply Nat.mod_upper_bound; lia). generalize dependent ((n - k) mod (k - a + 1)). intros q Hq. lia.
Qed.
Lemma slot_index m n i : slot_after m n = Some i -> index_after m n = i.
Proof.
  unfold slot_after, index_after, loop_start. cbv zeta. set (k := length (m_slots m)). destruct (n <? k); [intros X; now injection X|]. destruct (k =? 0) eqn:K; [discriminate|]. apply Nat.eqb_neq in K. destruct (m_loop m) as [l|]; [|discriminate]. replace (Nat.max 1 (Nat.min l k)) with (Nat.min (Nat.max l 1) k) by lia. intros X. congruence.
Qed.
Definition at_root (id : nat) (m : matcher) (n : nat) (over : bool) : reader := mkR (mkF (Main id) (index_after m n) id over) [].
Lemma flag_here env id n over w : is_flag_here env (at_root id (env id) n over) w = negb over && flag_shaped (env id) w && (1 <? length w).
Proof.
  unfold is_flag_here, at_root, is_flag_word, has_flags, long, flag_shaped. cbn [r_top f_noflags f_cur flags_of]. change (2 <=? length w) with (1 <? length w). destruct w as [|x w]; [destruct over, (m_flags (env id)); reflexivity|]. destruct over, (m_flags (env id)); cbn [negb andb]; rewrite ?Bool.andb_true_r, ?Bool.andb_false_r; reflexivity.
Qed.
Lemma root_update env id n over w next last : (forall l, In l (m_slots (env id)) \/ m_flags (env id) = Some l -> lookup l w = None) ->
  update env (at_root id (env id) n over) w next last =
  if negb over && flag_shaped (env id) w && (1 <? length w) then at_root id (env id) n (match m_end (env id) with Some e => text_eqb w e | None => false end)
  else at_root id (env id) (S n) (over || negb (m_anywhere (env id))).
Proof.
  intros NL. unfold update. rewrite flag_here. cbn [at_root r_top f_cur main_of]. destruct (negb over && flag_shaped (env id) w && (1 <? length w)) eqn:E.
  - apply Bool.andb_true_iff in E. destruct E as [E _]. apply Bool.andb_true_iff in E. destruct E as [Ov Sh]. assert (over = false) as -> by (destruct over; [discriminate|reflexivity]). unfold flag_shaped in Sh. destruct (m_flags (env id)) as [fl|] eqn:F; [|discriminate].
    set (f := mkF (Main id) (index_after (env id) n) id (match m_end (env id) with Some e => text_eqb w e | None => false end)).
    assert (B : (if is_end env (Main id) w then set_noflags (at_root id (env id) n false) else at_root id (env id) n false) = mkR f []). { unfold f, is_end. destruct (m_end (env id)) as [e|]; [destruct (text_eqb w e); reflexivity|reflexivity]. }
    rewrite B. change (push (mkR f []) (Flags id) id) with (mkR (mkF (Flags id) 1 id false) [f]). cbn [r_top f_cur f_idx f_noflags f_real negb andb]. set (nf := is_flag_word _ _ _ && _).
    assert (A1 : arg_at env (Flags id) 1 = Some fl) by (unfold arg_at, args_of; now rewrite F). rewrite A1, NL by auto.
    assert (A2 : advance env true nf (mkR (mkF (Flags id) 1 id false) [f]) = mkR (mkF (Flags id) 2 id false) [f]). { unfold advance. cbn [r_top f_idx f_cur args_of loop_of]. rewrite F. reflexivity. }
    rewrite A2. unfold pop. cbn [r_stack r_top pop_loop nofiles_of f_cur]. change (at_root id (env id) n (match m_end (env id) with Some e => text_eqb w e | None => false end)) with (mkR f []).
    clearbody nf. destruct (loop_of env (f_cur f)); [reflexivity|]. repeat match goal with |- context [if ?b then _ else _] => destruct b end; reflexivity.
  - cbn [negb andb]. change (f_real (r_top (at_root id (env id) n over))) with id.
    assert (R : (if negb (m_anywhere (env id)) then set_noflags (at_root id (env id) n over) else at_root id (env id) n over) = at_root id (env id) n (over || negb (m_anywhere (env id)))) by (destruct (m_anywhere (env id)), over; reflexivity).
    rewrite R. cbv zeta. set (nf := _ && _ && _ && _). clearbody nf. cbn [at_root r_top f_cur f_idx].
    assert (A : advance env false nf (at_root id (env id) n (over || negb (m_anywhere (env id)))) = at_root id (env id) (S n) (over || negb (m_anywhere (env id)))).
    { unfold advance, at_root. cbn [r_top f_idx f_cur args_of loop_of]. rewrite index_step. cbv zeta. clear E. destruct (length (m_slots (env id)) <? S (index_after (env id) n)); [|reflexivity]. destruct (m_loop (env id)); [reflexivity|]. destruct nf; reflexivity. }
    rewrite A. destruct (arg_at env (Main id) (index_after (env id) n)) as [l|] eqn:AA; [|reflexivity]. assert (L : In l (m_slots (env id))). { rewrite arg_at_index in AA. destruct (slot_after (env id) n); [|discriminate]. now apply nth_error_In in AA. }
    rewrite NL by auto. reflexivity.
Qed.
Lemma root_read env id ws : forall n over e, no_links (env id) ws -> read env (at_root id (env id) n over) ws e = let '(n', over') := arguments (env id) over n ws in at_root id (env id) n' over'.
Proof.
  induction ws as [|w ws IH]; intros n over e NL; [reflexivity|]. cbn [read arguments]. rewrite root_update by (intros l Hl; apply NL; [exact Hl|now left]). assert (NL' : no_links (env id) ws) by (intros l x Hl Hx; apply NL; [exact Hl|now right]). destruct (_ && _); now apply IH.
Qed.
(** the slot offered depends on how many words before were no flags, whatever flags are among them *)
Theorem argument_slots : forall env id ws e, no_links (env id) (map w_text ws) ->
  generate env id ws e = let '(n, over) := arguments (env id) false 0 (map w_text ws) in expected id (env id) n over e.
Proof.
  intros env id ws e NL. unfold generate. assert (S0 : start id = at_root id (env id) 0 false). { unfold start, at_root, index_after. cbv zeta. destruct (m_slots (env id)) as [|x l]; [cbn; destruct (m_loop (env id)); reflexivity|reflexivity]. }
  rewrite S0, root_read by exact NL. destruct (arguments (env id) false 0 (map w_text ws)) as [n over]. unfold offered, expected. destruct (w_redir e); [reflexivity|]. cbn [at_root r_top f_noflags f_cur f_idx main_of].
  assert (Fl : negb over && has_flags env (Main id) && is_flag_word env (Main id) (w_text e) = negb over && flag_shaped (env id) (w_text e)). { unfold has_flags, is_flag_word, flag_shaped. cbn [flags_of]. destruct (m_flags (env id)); [|destruct over; reflexivity]. rewrite Bool.andb_true_r. now destruct (w_text e). }
  rewrite Fl. clear Fl. destruct (_ && _); [reflexivity|]. rewrite arg_at_index. destruct (slot_after (env id) n) as [i|] eqn:SA.
  - pose proof (slot_after_bound _ _ _ SA) as B. rewrite (slot_index _ _ _ SA). destruct (nth_error (m_slots (env id)) (i - 1)) eqn:NE; [reflexivity|]. apply nth_error_None in NE. lia.
  - cbn [nofiles_of args_of]. destruct (m_nofiles (env id)); [reflexivity|]. unfold has_flags. cbn [flags_of]. destruct (m_slots (env id)) as [|x l]; [|reflexivity]. destruct (m_flags (env id)); reflexivity.
Qed.
Print Assumptions argument_slots.

(** git-like: slots 1..3, loops from 2; flags -a; -- ends flags *)
Definition demo (_ : nat) : matcher := mkM [[]; []; []] (Some []) [45%N] (Some 2) false true (Some [45%N; 45%N]).
Definition W (t : text) : word := mkW t false.
Example argument_slots_example : no_links (demo 0) [[97]; [45; 97]; [98]; [99]; [100]; [45; 45]; [45; 98]]%N /\
  generate demo 0 (map W [[97]; [45; 97]; [98]; [99]; [100]; [45; 45]; [45; 98]]%N) (W [45%N]) = OSlot 0 2.
Proof. split; [|vm_compute; reflexivity]. intros l w [H|H] _; [cbn in H; destruct H as [<-|[<-|[<-|[]]]]; reflexivity|injection H as <-; reflexivity]. Qed.

(** a flag may be left out *)
Corollary flag_changes_nothing : forall env id a f b e, no_links (env id) (map w_text (a ++ f :: b)) ->
  let '(_, over) := arguments (env id) false 0 (map w_text a) in negb over && flag_shaped (env id) (w_text f) && (1 <? length (w_text f)) = true ->
  (forall t, m_end (env id) = Some t -> text_eqb (w_text f) t = false) -> generate env id (a ++ f :: b) e = generate env id (a ++ b) e.
Proof.
  intros env id a f b e NL. destruct (arguments (env id) false 0 (map w_text a)) as [n over] eqn:E. intros Fl NE. rewrite !argument_slots; [|intros l w Hl Hw; apply NL; [exact Hl|]; rewrite map_app in *; cbn [map]; apply in_app_or in Hw; apply in_or_app; cbn [In]; tauto|exact NL].
  assert (X : forall m ov k x y, arguments m ov k (x ++ y) = let '(k', ov') := arguments m ov k x in arguments m ov' k' y). { clear. intros m ov k x y. revert ov k. induction x as [|w x IH]; intros ov k; [reflexivity|]. cbn [app arguments]. destruct (_ && _); apply IH. }
  rewrite !map_app, !X, E. cbn [map arguments]. rewrite Fl. apply Bool.andb_true_iff in Fl. destruct Fl as [Fl _]. apply Bool.andb_true_iff in Fl. destruct Fl as [Ov _]. assert (over = false) as -> by (destruct over; [discriminate|reflexivity]).
  destruct (m_end (env id)) as [t|]; [rewrite (NE t) by reflexivity; reflexivity|reflexivity].
Qed.
Print Assumptions flag_changes_nothing.
Example flag_changes_nothing_example : generate demo 0 (map W [[97]; [45; 97]; [98]]%N) (W []) = OSlot 0 3 /\ generate demo 0 (map W [[97]; [98]]%N) (W []) = OSlot 0 3.
Proof. split; vm_compute; reflexivity. Qed.

(** the argument of a redirection counts as an argument of the command, which it is not *)
Theorem redirection_refuted : exists env id a r b e, w_redir r = true /\ no_links (env id) (map w_text (a ++ r :: b)) /\ generate env id (a ++ r :: b) e <> generate env id (a ++ b) e.
Proof.
  exists (fun _ => mkM [[]; []] None [] None false true None), 0, [], (mkW [111; 117; 116]%N true), [], (W []). split; [reflexivity|]. split; [|vm_compute; discriminate]. intros l w [H|H] _; [cbn in H; destruct H as [<-|[<-|[]]]; reflexivity|discriminate].
Qed.
Print Assumptions redirection_refuted.
(** if there are none the words are those of the command (the slot is that of [argument_slots]) *)

(** ** C106: linked argmatchers *)
(** which words an argmatcher takes, from slot [i] up to its last; an argmatcher without slots takes one *)
Section Links.
Variable env : nat -> matcher.
Definition link (m i : nat) (w : text) : option nat := match nth_error (m_slots (env m)) (i - 1) with Some l => lookup l w | None => None end.
Inductive takes : nat -> nat -> list text -> Prop :=
| takes_any m w : m_slots (env m) = [] -> m_loop (env m) = None -> takes m 1 [w]
| takes_last m i w : 1 <= i -> i = length (m_slots (env m)) -> m_loop (env m) = None -> link m i w = None -> takes m i [w]
| takes_last_link m i w l ws : 1 <= i -> i = length (m_slots (env m)) -> m_loop (env m) = None -> link m i w = Some l -> takes l 1 ws -> takes m i (w :: ws)
| takes_next m i w ws : 1 <= i -> i < length (m_slots (env m)) -> link m i w = None -> takes m (S i) ws -> takes m i (w :: ws)
| takes_next_link m i w l ws ws' : 1 <= i -> i < length (m_slots (env m)) -> link m i w = Some l -> takes l 1 ws -> takes m (S i) ws' -> takes m i (w :: ws ++ ws').
(** no flags, no nofiles *)
Definition plain : Prop := forall m, m_flags (env m) = None /\ m_prefix (env m) = [] /\ m_nofiles (env m) = false /\ m_anywhere (env m) = true.
Definition at_slot_of (m i : nat) : frame := mkF (Main m) i m false.
(** frames of argmatchers, none of flags *)
Definition main_frame (f : frame) : Prop := exists m i, f = at_slot_of m i.
Definition room (f : frame) : bool := match loop_of env (f_cur f) with Some _ => true | None => f_idx f <=? length (args_of env (f_cur f)) end.
(** where reading goes on: in the topmost argmatcher with a slot left, else in the first one *)
Fixpoint back (top : frame) (st : list frame) : reader := match st with [] => mkR top [] | f :: s => if room top then mkR top st else back f s end.
Hypothesis P : plain.
Lemma pop_back top f s : main_frame top -> Forall main_frame (f :: s) -> pop_loop env false top (f :: s) = (true, back f s).
Proof.
  revert top f. induction s as [|g s IH]; intros top f (m & i & ->) F; inversion F as [|x y (m2 & i2 & ->) F2]; subst.
  - cbn [pop_loop at_slot_of f_cur nofiles_of loop_of has_flags flags_of]. destruct (P m) as (_ & _ & -> & _). unfold has_flags. cbn [flags_of f_idx args_of andb]. destruct (P m2) as (-> & _). rewrite Bool.andb_false_r. cbn [back andb]. destruct (m_loop (env m2)); [reflexivity|]. destruct (_ <=? _); reflexivity.
  - cbn [pop_loop at_slot_of f_cur nofiles_of loop_of]. destruct (P m) as (_ & _ & -> & _). unfold has_flags. cbn [flags_of f_idx args_of andb]. destruct (P m2) as (E & _). rewrite E, Bool.andb_false_r. cbn [andb]. unfold back. fold back. unfold room at 1. cbn [at_slot_of f_cur loop_of f_idx args_of]. destruct (m_loop (env m2)); [reflexivity|]. destruct (_ <=? _); [reflexivity|]. change (mkF (Main m2) i2 m2 false) with (at_slot_of m2 i2). apply (IH (at_slot_of m2 i2) g); [now exists m2, i2|exact F2].
Qed.
Lemma update_plain m i st w next last : update env (mkR (at_slot_of m i) st) w next last =
  let r := advance env false false (mkR (at_slot_of m i) st) in
  match arg_at env (Main m) i with None => r | Some links => match lookup links w with Some l => push r (Main l) l | None => r end end.
Proof.
  assert (X : forall w, is_flag_word env (Main m) w = false). { intros x. unfold is_flag_word. destruct (P m) as (_ & E & _). rewrite E. now destruct x. }
  assert (IF : is_flag_here env (mkR (at_slot_of m i) st) w = false). { unfold is_flag_here, at_slot_of. cbn [r_top f_cur f_noflags]. rewrite X. reflexivity. }
  unfold update. rewrite IF. cbn [r_top at_slot_of f_cur f_real negb andb]. destruct (P m) as (_ & _ & _ & A). rewrite A. cbn [negb andb]. cbn [r_top f_noflags f_cur f_idx negb andb]. rewrite X. cbn [andb]. reflexivity.
Qed.
Lemma link_arg m i w : 1 <= i -> link m i w = match arg_at env (Main m) i with Some l => lookup l w | None => None end.
Proof. intros I1. destruct i as [|j]; [lia|]. unfold link. cbn [arg_at args_of]. now replace (S j - 1) with j by lia. Qed.
Lemma back_back top st : Forall main_frame (top :: st) -> exists t s, back top st = mkR t s /\ back t s = mkR t s /\ Forall main_frame (t :: s).
Proof.
  revert top. induction st as [|f s IH]; intros top F; [exists top, []; split; [reflexivity|]; split; [reflexivity|exact F]|]. cbn [back]. destruct (room top) eqn:R; [exists top, (f :: s); split; [reflexivity|]; split; [cbn [back]; now rewrite R|exact F]|]. inversion F; subst. now apply IH.
Qed.
(** in plain argmatchers what follows does not matter *)
Definition main_reader (r : reader) : Prop := Forall main_frame (r_top r :: r_stack r).
Lemma update_main r w next last : main_reader r -> main_reader (update env r w next last) /\ forall n2 l2, update env r w next last = update env r w n2 l2.
Proof.
  destruct r as [top st]. unfold main_reader. cbn [r_top r_stack]. intros F. inversion F as [|x y (m & i & ->) F2]; subst. split; [|intros n2 l2; now rewrite !update_plain]. rewrite update_plain. cbv zeta.
  assert (A : main_reader (advance env false false (mkR (at_slot_of m i) st))). { unfold advance. cbn [r_top at_slot_of f_idx f_cur args_of loop_of]. assert (G : forall j, main_reader (set_idx (mkR (mkF (Main m) i m false) st) j)) by (intros j; constructor; [now exists m, j|exact F2]). destruct (_ <? _); [|apply G]. destruct (m_loop (env m)); [apply G|]. unfold pop. cbn [r_stack r_top]. destruct st as [|f s]; [apply G|]. rewrite (pop_back (at_slot_of m i) f s (ex_intro _ m (ex_intro _ i eq_refl)) F2). destruct (back_back f s F2) as (t & s' & E & _ & F3). rewrite E. exact F3. }
  destruct (arg_at env (Main m) i); [|exact A]. destruct (lookup l w); [|exact A]. unfold push, main_reader. cbn [r_top r_stack]. constructor; [now exists n, 1|exact A].
Qed.
Lemma read_main_app a : forall r b e, main_reader r -> read env r (a ++ b) e = read env (read env r a []) b e.
Proof.
  induction a as [|w a IH]; intros r b e M; [reflexivity|]. cbn [app read]. destruct (update_main r w (match a ++ b with [] => e | x :: _ => x end) (match a ++ b with [] => true | _ => false end) M) as [M1 E]. rewrite (E (match a with [] => [] | x :: _ => x end) (match a with [] => true | _ => false end)). apply IH. rewrite <- E. exact M1.
Qed.
Lemma main_push l t s : main_reader (mkR t s) -> main_reader (push (mkR t s) (Main l) l).
Proof. intros H. constructor; [now exists l, 1|exact H]. Qed.
(** when an argmatcher has all its words, reading goes on where it was left *)
Lemma takes_back m i ws : takes m i ws -> forall f s e, Forall main_frame (f :: s) -> read env (mkR (at_slot_of m i) (f :: s)) ws e = back f s.
Proof.
  induction 1 as [m w Z L|m i w I1 I2 L K|m i w l ws I1 I2 L K H IH|m i w ws I1 I2 K H IH|m i w l ws ws' I1 I2 K H IH H' IH']; intros f s e F.
  - cbn [read]. rewrite update_plain. cbn [arg_at args_of]. rewrite Z. cbn [nth_error]. unfold advance. cbn [r_top at_slot_of f_idx f_cur args_of loop_of]. rewrite Z, L. cbn [length Nat.ltb Nat.leb]. unfold pop. cbn [r_stack r_top]. now rewrite (pop_back (at_slot_of m 1) f s (ex_intro _ m (ex_intro _ 1 eq_refl)) F).
  - cbn [read]. rewrite update_plain. rewrite link_arg in K by exact I1. cbv zeta. unfold advance. cbn [r_top at_slot_of f_idx f_cur args_of loop_of]. rewrite L. replace (length (m_slots (env m)) <? S i) with true by (symmetry; apply Nat.ltb_lt; lia). unfold pop. cbn [r_stack r_top]. rewrite (pop_back (at_slot_of m i) f s (ex_intro _ m (ex_intro _ i eq_refl)) F). destruct (arg_at env (Main m) i); [now rewrite K|reflexivity].
  - cbn [read]. rewrite update_plain. rewrite link_arg in K by exact I1. cbv zeta. unfold advance. cbn [r_top at_slot_of f_idx f_cur args_of loop_of]. rewrite L. replace (length (m_slots (env m)) <? S i) with true by (symmetry; apply Nat.ltb_lt; lia). unfold pop. cbn [r_stack r_top]. rewrite (pop_back (at_slot_of m i) f s (ex_intro _ m (ex_intro _ i eq_refl)) F). destruct (arg_at env (Main m) i); [|discriminate]. rewrite K. destruct (back_back f s F) as (t & s' & E & E2 & F2). rewrite E. unfold push. cbn [r_top r_stack]. change (mkF (Main l) 1 l false) with (at_slot_of l 1). rewrite IH by exact F2. exact E2.
  - cbn [read]. rewrite update_plain. rewrite link_arg in K by exact I1. cbv zeta. unfold advance. cbn [r_top at_slot_of f_idx f_cur args_of loop_of]. replace (length (m_slots (env m)) <? S i) with false by (symmetry; apply Nat.ltb_ge; lia). unfold set_idx. cbn [r_top f_cur f_real f_noflags r_stack]. destruct (arg_at env (Main m) i); [rewrite K|]; now apply IH.
  - cbn [read]. rewrite update_plain. rewrite link_arg in K by exact I1. cbv zeta. unfold advance. cbn [r_top at_slot_of f_idx f_cur args_of loop_of]. replace (length (m_slots (env m)) <? S i) with false by (symmetry; apply Nat.ltb_ge; lia). unfold set_idx. cbn [r_top f_cur f_real f_noflags r_stack]. destruct (arg_at env (Main m) i); [|discriminate]. rewrite K. unfold push. cbn [r_top r_stack]. change (mkF (Main l) 1 l false) with (at_slot_of l 1). change (mkF (Main m) (S i) m false) with (at_slot_of m (S i)).
    assert (F2 : Forall main_frame (at_slot_of m (S i) :: f :: s)) by (constructor; [now exists m, (S i)|exact F]). rewrite read_main_app by (constructor; [now exists l, 1|exact F2]). rewrite IH by exact F2. assert (RR : room (at_slot_of m (S i)) = true). { unfold room. cbn [at_slot_of f_cur loop_of f_idx args_of]. destruct (m_loop (env m)); [reflexivity|]. apply Nat.leb_le. lia. } assert (BB : back (at_slot_of m (S i)) (f :: s) = mkR (at_slot_of m (S i)) (f :: s)) by (unfold back; now rewrite RR). match goal with |- read _ (back ?x _) _ _ = _ => change x with (at_slot_of m (S i)) end. rewrite BB. now apply IH'.
Qed.
Lemma read_unlinked m st ws : forall i e, 1 <= i -> i + length ws <= length (m_slots (env m)) -> (forall j w, nth_error ws j = Some w -> link m (i + j) w = None) -> main_reader (mkR (at_slot_of m i) st) ->
  read env (mkR (at_slot_of m i) st) ws e = mkR (at_slot_of m (i + length ws)) st.
Proof.
  induction ws as [|w ws IH]; intros i e I1 I2 K M; [cbn [length read]; now rewrite Nat.add_0_r|]. cbn [read length] in *. rewrite update_plain. cbv zeta. pose proof (K 0 w eq_refl) as K0. rewrite Nat.add_0_r, link_arg in K0 by exact I1. unfold advance. cbn [r_top at_slot_of f_idx f_cur args_of loop_of]. replace (length (m_slots (env m)) <? S i) with false by (symmetry; apply Nat.ltb_ge; lia). unfold set_idx. cbn [r_top f_cur f_real f_noflags r_stack].
  assert (X : read env (mkR (at_slot_of m (S i)) st) ws e = mkR (at_slot_of m (i + S (length ws))) st). { rewrite IH; [f_equal; f_equal; lia|lia|lia| |constructor; [now exists m, (S i)|inversion M; assumption]]. intros j x J. specialize (K (S j) x J). now replace (S i + j) with (i + S j) by lia. }
  destruct (arg_at env (Main m) i); [rewrite K0|]; exact X.
Qed.
End Links.

(** after a word that leads to another argmatcher and all the words that one takes (and those it leads to), the next slot is offered *)
Theorem linked_then_next : forall env root a w l ws e, plain env -> S (length a) < length (m_slots (env root)) ->
  (forall j x, nth_error a j = Some x -> link env root (S j) x = None) -> link env root (S (length a)) w = Some l -> takes env l 1 ws -> w_redir e = false ->
  generate env root (map W (a ++ w :: ws)) e = OSlot root (S (S (length a))).
Proof.
  intros env root a w l ws e P B K L T1 R. unfold generate. rewrite map_map. cbn [w_text W]. rewrite map_id. rewrite read_main_app; [|exact P|constructor; [now exists root, 1|constructor]]. change (start root) with (mkR (at_slot_of root 1) []). rewrite read_unlinked; [|exact P|lia|lia|intros j x J; apply (K j x J)|constructor; [now exists root, 1|constructor]].
  cbn [read]. rewrite update_plain by exact P. cbv zeta. cbn [Nat.add]. rewrite link_arg in L by lia. unfold advance. cbn [r_top at_slot_of f_idx f_cur args_of loop_of]. replace (length (m_slots (env root)) <? S (S (length a))) with false by (symmetry; apply Nat.ltb_ge; lia). unfold set_idx. cbn [r_top f_cur f_real f_noflags r_stack]. destruct (arg_at env (Main root) (S (length a))); [|discriminate]. rewrite L. unfold push. cbn [r_top r_stack].
  change (mkF (Main l) 1 l false) with (at_slot_of l 1). rewrite (takes_back env P l 1 ws T1); [|constructor; [now exists root, (S (S (length a)))|constructor]]. cbn [back]. unfold offered. rewrite R. cbn [r_top at_slot_of f_noflags f_cur f_idx main_of negb]. unfold has_flags. cbn [r_top at_slot_of f_noflags f_cur f_idx main_of flags_of]. destruct (P root) as (E & _). rewrite E. cbn [andb].
  destruct (arg_at env (Main root) (S (S (length a)))) eqn:A; [reflexivity|]. cbn [arg_at args_of] in A. apply nth_error_None in A. lia.
Qed.
Print Assumptions linked_then_next.
(** and among them, the slots of that argmatcher *)
Theorem linked_slots : forall env root a w l ws e, plain env -> S (length a) <= length (m_slots (env root)) ->
  (forall j x, nth_error a j = Some x -> link env root (S j) x = None) -> link env root (S (length a)) w = Some l ->
  length ws < length (m_slots (env l)) -> (forall j x, nth_error ws j = Some x -> link env l (S j) x = None) -> w_redir e = false ->
  generate env root (map W (a ++ w :: ws)) e = OSlot l (S (length ws)).
Proof.
  intros env root a w l ws e P B K L B2 K2 R. unfold generate. rewrite map_map. cbn [w_text W]. rewrite map_id. rewrite read_main_app; [|exact P|constructor; [now exists root, 1|constructor]]. change (start root) with (mkR (at_slot_of root 1) []). rewrite read_unlinked; [|exact P|lia|lia|intros j x J; apply (K j x J)|constructor; [now exists root, 1|constructor]].
  cbn [read]. rewrite update_plain by exact P. cbv zeta. cbn [Nat.add]. rewrite link_arg in L by lia. destruct (arg_at env (Main root) (S (length a))); [|discriminate]. rewrite L. set (r := advance env false false _). assert (Mr : main_reader r). { unfold r, advance. cbn [r_top at_slot_of f_idx f_cur args_of loop_of]. assert (G : forall j, main_reader (set_idx (mkR (mkF (Main root) (S (length a)) root false) []) j)) by (intros j; constructor; [now exists root, j|constructor]). destruct (_ <? _); [|apply G]. destruct (m_loop (env root)); [apply G|]. cbn [pop r_stack]. apply G. }
  unfold push. change (mkF (Main l) 1 l false) with (at_slot_of l 1). rewrite read_unlinked; [|exact P|lia|lia|intros j x J; apply (K2 j x J)|constructor; [now exists l, 1|exact Mr]]. unfold offered. rewrite R. cbn [r_top at_slot_of f_noflags f_cur f_idx main_of negb]. unfold has_flags. cbn [flags_of]. destruct (P l) as (-> & _). cbn [andb Nat.add].
  destruct (arg_at env (Main l) (S (length ws))) eqn:A; [reflexivity|]. cbn [arg_at args_of] in A. apply nth_error_None in A. lia.
Qed.
Print Assumptions linked_slots.

(** root: a leads to 1; 1 has two slots, z in the second leads to 2, which has one *)
Definition tree (m : nat) : matcher :=
  match m with 0 => mkM [[([97%N], 1)]; []; []] None [] None false true None | 1 => mkM [[]; [([122%N], 2)]] None [] None false true None | _ => mkM [[]] None [] None false true None end.
Example linked_then_next_example : plain tree /\ link tree 0 1 [97%N] = Some 1 /\ takes tree 1 1 [[120]; [122]; [98]]%N /\ generate tree 0 (map W [[97]; [120]; [122]; [98]]%N) (W []) = OSlot 0 2.
Proof.
  split; [intros [|[|m]]; cbn; auto|]. split; [reflexivity|]. split; [|vm_compute; reflexivity]. apply takes_next; [lia|cbn; lia|reflexivity|]. apply (takes_last_link tree 1 2 [122%N] 2); [lia|reflexivity|reflexivity|reflexivity|]. apply takes_last; [lia|reflexivity|reflexivity|reflexivity].
Qed.
Example linked_slots_example : generate tree 0 (map W [[97]; [120]]%N) (W []) = OSlot 1 2.
Proof. vm_compute. reflexivity. Qed.

(** nofiles: an argmatcher whose slots are used up offers nothing more, whatever argmatchers led to it *)
Definition used_up (env : nat -> matcher) (r : reader) (m : nat) : Prop := f_cur (r_top r) = Main m /\ f_real (r_top r) = m /\ length (m_slots (env m)) < f_idx (r_top r).
Lemma dead_end_update env r m w next last : used_up env r m -> m_nofiles (env m) = true -> m_loop (env m) = None -> is_flag_word env (Main m) w = false -> is_flag_word env (Main m) next = false -> used_up env (update env r w next last) m.
Proof.
  intros (C & R & B) NF L F1 F2. destruct r as [[cur idx real no] st]. cbn [r_top f_cur f_real f_idx] in *. subst cur real. unfold update, is_flag_here. cbn [r_top f_cur f_noflags]. rewrite F1, Bool.andb_false_r. cbn [andb negb r_top f_real f_cur].
  set (r1 := if negb (m_anywhere (env m)) then _ else _). assert (E : exists no', r1 = mkR (mkF (Main m) idx m no') st) by (unfold r1; destruct (negb (m_anywhere (env m))); eexists; reflexivity). destruct E as [no' E]. rewrite E. cbn [r_top f_noflags f_cur f_idx]. rewrite F2, Bool.andb_false_r. cbn [andb].
  assert (A : arg_at env (Main m) idx = None). { destruct idx; [reflexivity|]. cbn [arg_at args_of]. apply nth_error_None. lia. } rewrite A. unfold advance. cbn [r_top f_idx f_cur args_of loop_of]. rewrite L. replace (length (m_slots (env m)) <? S idx) with true by (symmetry; apply Nat.ltb_lt; lia).
  unfold pop. cbn [r_stack r_top]. destruct st as [|f s]; [split; [reflexivity|]; split; [reflexivity|cbn; lia]|]. cbn [pop_loop f_cur nofiles_of]. rewrite NF. split; [reflexivity|]. split; [reflexivity|cbn; lia].
Qed.
Theorem nofiles_dead_end_partial : forall env r m ws e, used_up env r m -> m_nofiles (env m) = true -> m_loop (env m) = None -> Forall (fun w => is_flag_word env (Main m) w = false) (w_text e :: ws) -> w_redir e = false ->
  offered env (read env r ws (w_text e)) e = ONothing.
Proof.
  intros env r m ws e U NF L F R. revert r U. induction ws as [|w ws IH]; intros r U.
  - cbn [read]. inversion F as [|x y F1 _]; subst. destruct U as (C & Rl & B). unfold offered. rewrite R, C, F1, Bool.andb_false_r. assert (A : arg_at env (Main m) (f_idx (r_top r)) = None). { destruct (f_idx (r_top r)); [reflexivity|]. cbn [arg_at args_of]. apply nth_error_None. lia. } rewrite A. cbn [nofiles_of]. now rewrite NF.
  - cbn [read]. inversion F as [|x y F1 F2]; subst. inversion F2 as [|x y F3 F4]; subst. apply IH; [constructor; assumption|]. apply dead_end_update; [exact U|exact NF|exact L|exact F3|]. destruct ws as [|v ws]; [exact F1|]. now inversion F4.
Qed.
Print Assumptions nofiles_dead_end_partial.
Definition dead (m : nat) : matcher :=
  match m with 0 => mkM [[([97%N], 1)]; []] None [] None false true None | 1 => mkM [[]; []; [([122%N], 2)]] None [] None true true None | _ => mkM [[]] None [] None false true None end.
Example dead_end_example : used_up dead (read dead (start 0) [[97]; [120]; [121]; [119]]%N []) 1 /\ generate dead 0 (map W [[97]; [120]; [121]; [119]; [119]]%N) (W []) = ONothing.
Proof. split; [split; [reflexivity|]; split; [reflexivity|cbn; lia]|vm_compute; reflexivity]. Qed.
(** but if its last slot led to another argmatcher, then when that one is through it offers one of its earlier slots again *)
Theorem nofiles_dead_end_refuted : exists env root m ws e, m_nofiles (env m) = true /\ m_loop (env m) = None /\ (exists a, ws = a ++ [[122%N]; [98%N]] /\ generate env root (map W a) e = OSlot m (length (m_slots (env m)))) /\ generate env root (map W ws) e = OSlot m 2.
Proof. exists dead, 0, 1, [[97]; [120]; [121]; [122]; [98]]%N, (W []). split; [reflexivity|]. split; [reflexivity|]. split; [exists [[97]; [120]; [121]]%N; split; [reflexivity|vm_compute; reflexivity]|vm_compute; reflexivity]. Qed.
Print Assumptions nofiles_dead_end_refuted.

(** flags may come anywhere, but those of an argmatcher are not offered any more after one that its last slot led to is through *)
Definition flagged (m : nat) : matcher :=
  match m with 0 => mkM [[([97%N], 1)]] None [] None false true None | 1 => mkM [[([122%N], 2)]] (Some []) [45%N] None false true None | _ => mkM [[]] None [] None false true None end.
Theorem flags_anywhere_refuted : exists env root m a b f, m_flags (env m) <> None /\ m_anywhere (env m) = true /\ f = [45%N] /\ generate env root (map W a) (W f) = OFlags m /\ generate env root (map W (a ++ b)) (W f) <> OFlags m /\
  generate env m (map W b) (W f) = OFlags m.
Proof. exists flagged, 0, 1, [[97]]%N, [[122]; [98]]%N, [45%N]. split; [discriminate|]. split; [reflexivity|]. split; [reflexivity|]. split; [vm_compute; reflexivity|]. split; [vm_compute; discriminate|vm_compute; reflexivity]. Qed.
Print Assumptions flags_anywhere_refuted.

(** ** C107: making argmatchers *)
(** the choices given with the first addarg are those of slot 1 and so on, added to what was there *)
Fixpoint merged (old new : list (list text)) : list (list text) := match old, new with [], l => l | l, [] => l | x :: a, y :: b => (x ++ y) :: merged a b end.
Lemma addargs_merge new : forall done old, map fst (k_slots (fold_left addarg new (mkMk (done ++ old) (length done)))) = map fst done ++ merged (map fst old) new.
Proof.
  induction new as [|y new IH]; intros done old; [cbn [fold_left k_slots]; rewrite map_app; now destruct old|]. cbn [fold_left]. unfold addarg at 2. cbn [k_next k_slots]. rewrite app_length. destruct old as [|x old].
  - cbn [length]. rewrite Nat.add_0_r, app_nil_r, Nat.ltb_irrefl. specialize (IH (done ++ [(y, false)]) []). rewrite app_nil_r, app_length in IH. cbn [length] in IH. rewrite Nat.add_1_r in IH. rewrite IH, map_app, <- app_assoc. cbn [map merged app fst]. now destruct new.
  - replace (length done <? length done + length (x :: old)) with true by (symmetry; apply Nat.ltb_lt; cbn; lia). assert (X : forall f, at_slot (done ++ x :: old) (length done) f = (done ++ [f x]) ++ old). { intros f. clear. induction done as [|z d IHd]; [reflexivity|]. cbn [app length at_slot]. now rewrite IHd. } rewrite X. specialize (IH (done ++ [(fst x ++ y, snd x)]) old). rewrite app_length in IH. cbn [length] in IH. rewrite Nat.add_1_r in IH. rewrite IH, map_app, <- app_assoc. reflexivity.
Qed.
Theorem addarg_slots : forall old new, map fst (k_slots (fold_left addarg new (again old))) = merged (map fst (k_slots old)) new.
Proof. intros old new. exact (addargs_merge new [] (k_slots old)). Qed.
Print Assumptions addarg_slots.
Example addarg_slots_example : k_slots (fold_left addarg [[[97%N]]; [[98%N]]] (again (fold_left addarg [[[99%N]]] fresh))) = [([[99%N]; [97%N]], false); ([[98%N]], false)].
Proof. reflexivity. Qed.
(** addargunsorted adds no slot: it fails in every new argmatcher, whatever slots were added before *)
Lemma fold_addarg_next l : forall b, k_next b = length (k_slots b) -> k_next (fold_left addarg l b) = length (k_slots (fold_left addarg l b)).
Proof. induction l as [|x l IH]; intros b H; [exact H|]. apply IH. unfold addarg. rewrite H, Nat.ltb_irrefl. cbn. rewrite app_length. cbn. lia. Qed.
Theorem addargunsorted_refuted : forall slots l, addargunsorted (fold_left addarg slots fresh) l = None.
Proof. intros slots l. unfold addargunsorted. rewrite fold_addarg_next by reflexivity. now rewrite Nat.ltb_irrefl. Qed.
Print Assumptions addargunsorted_refuted.
Example addargunsorted_works_again : addargunsorted (again (fold_left addarg [[[99%N]]] fresh)) [[97%N]] = Some (mkMk [([[99%N]; [97%N]], true)] 1).
Proof. reflexivity. Qed.
