(** C28: path normalisation. *)
From Coq Require Import String.
From Verif Require Import Base CmpModel CmpSpec CmpProofs CmpProperties PathModel PathProofs PathProperties NormSpec NormProofs.
Local Open Scope list_scope.

Definition text (p : list N) : Prop := Forall (fun c => c <> 0%N) p /\ (N.of_nat (length p) < 2147483648)%N.

(** Where the elements start: after the drive, or at the beginning of a device path. *)
Definition body walpha (p : list N) : list N := if device p then p else past_drive walpha p.

(** ** C28 *)

(** What normalising does: after the drive, the elements are folded one by one ("." dropped, ".." takes back).  In
    particular nothing unread is overwritten, whatever the byte before the buffer. *)
Theorem c28_meaning : forall walpha b p sepc, sep sepc -> text p ->
  let rooted := sep_at (body walpha p) 0 in
  exists pre es, elems (if rooted then tl (body walpha p) else body walpha p) es /\
  (device p = false -> clean_drive walpha p -> pre = firstn (drive_len walpha p) p) /\
  normalise walpha (Some b) p sepc =
    Some (pre ++ ntext sepc (nfold (is_unc_b p) (negb (device p)) (eats walpha p && negb (device p)) es
                               (if rooted then None else Some 0, rooted, []))).
Proof.
  intros walpha b p sepc Hs [Hz Hl]. destruct (normalise_ok walpha b p sepc Hs Hz Hl) as (pre & es & H1 & _ & H2 & H3 & _).
  exists pre, es. auto.
Qed.
Print Assumptions c28_meaning.

(** Never longer than before. *)
Theorem c28_short : forall walpha b p sepc, sep sepc -> text p ->
  exists r, normalise walpha (Some b) p sepc = Some r /\ length r <= length p.
Proof.
  intros walpha b p sepc Hs [Hz Hl]. destruct (normalise_ok walpha b p sepc Hs Hz Hl) as (pre & es & _ & H1 & _ & H2 & H3).
  eexists. split; [exact H2|]. rewrite app_length, H1. pose proof (drive_len_le walpha p) as Hd.
  pose proof (f_equal (@length N) (drive_split walpha p)) as E. rewrite skipn_length in E. destruct (device p); lia.
Qed.
Print Assumptions c28_short.

(** The byte before the buffer is read at times, but does not matter. *)
Theorem c28_byte_before : forall walpha b b' p sepc, sep sepc -> text p ->
  normalise walpha (Some b) p sepc = normalise walpha (Some b') p sepc.
Proof.
  intros walpha b b' p sepc Hs Ht. destruct (device p) eqn:Ed.
  - (* no byte at all is copied in front *)
    destruct Ht as [Hz Hl]. destruct (normalise_ok walpha b p sepc Hs Hz Hl) as (pre & es & H1 & H2 & _ & H3 & _).
    destruct (normalise_ok walpha b' p sepc Hs Hz Hl) as (pre' & es' & H1' & H2' & _ & H3' & _).
    rewrite Ed in *. apply length_zero_iff_nil in H2, H2'. subst pre pre'. rewrite (elems_fun _ _ H1 _ H1') in H3. rewrite H3, H3'. reflexivity.
  - destruct Ht as [Hz Hl]. unfold normalise. cbv zeta. destruct (norm_drive_ok walpha p Ed) as (pre & En & Hpl & _). rewrite En.
    assert (Hcase : pre <> [] \/ pre = []) by (destruct pre; [right; reflexivity|left; discriminate]).
    destruct Hcase as [Hp|Hp].
    + destruct (rev pre) as [|c l] eqn:Er; [|reflexivity]. apply (f_equal (@rev N)) in Er. rewrite rev_involutive in Er. contradiction.
    + destruct (normalise_ok walpha b p sepc Hs Hz Hl) as (q & es & H1 & H2 & _ & H3 & _).
      destruct (normalise_ok walpha b' p sepc Hs Hz Hl) as (q' & es' & H1' & H2' & _ & H3' & _).
      rewrite Ed in *. rewrite Hp in Hpl. cbn [length] in Hpl. rewrite <- Hpl in H2, H2'. apply length_zero_iff_nil in H2, H2'. subst q q'.
      rewrite (elems_fun _ _ H1 _ H1') in H3. pose proof (eq_trans H3 (eq_sym H3')) as E. unfold normalise in E. cbv zeta in E. rewrite En in E. exact E.
Qed.
Print Assumptions c28_byte_before.

(** The shape of the result: the drive, perhaps the root, then proper elements, none of them "."; each but the last is
    followed by one separator, the one asked for.  Under a root there is no ".."; otherwise, if no other name begins
    with a dot, every ".." comes before every name. *)
Lemma no_dot_elements unc eat es st : Forall (fun e : elem => fst e <> dot) (snd st) -> Forall (fun e : elem => fst e <> dot) (snd (nfold unc true eat es st)).
Proof.
  intro H. apply (nfold_inv unc true eat (fun st => Forall (fun e : elem => fst e <> dot) (snd st)) (fun _ => True)); [|exact H|clear; induction es; constructor; auto].
  intros [[c r] s] e Hs _. cbn [snd] in Hs. unfold nstep. cbn [andb]. destruct (eqb_name (fst e) dot) eqn:E; [exact Hs|]. apply eqb_name_no in E.
  assert (Hp : Forall (fun e : elem => fst e <> dot) (if eqb_name (fst e) [] then s else e :: s)) by (destruct (eqb_name (fst e) []); [exact Hs|constructor; auto]).
  assert (Ht : Forall (fun e : elem => fst e <> dot) (tl s)) by (destruct Hs; [constructor|assumption]).
  destruct (eqb_name (fst e) dotdot); [|exact Hp]. destruct c as [[|k]|]; [destruct eat; [exact Hs|exact Hp]|exact Ht|exact Ht].
Qed.

Theorem c28_shape : forall walpha b p sepc, sep sepc -> text p -> device p = false ->
  let rooted := sep_at (past_drive walpha p) 0 in
  exists pre (root : bool) es, normalise walpha (Some b) p sepc = Some (pre ++ (if root then [sepc] else []) ++ join sepc es) /\
  (clean_drive walpha p -> pre = firstn (drive_len walpha p) p) /\
  Forall (fun e => proper (fst e) /\ fst e <> dot) es /\
  (forall a e, es = a ++ [e] -> Forall (fun e => snd e = true) a) /\
  (rooted = true -> Forall (fun e => fst e <> dotdot) es) /\
  (rooted = false -> (forall es0, elems (past_drive walpha p) es0 -> Forall plain_dots es0) ->
     exists ups names, es = ups ++ names /\ Forall (fun e => fst e = dotdot) ups /\ Forall (fun e => dot_name (fst e) = false) names /\
       (eats walpha p = true -> ups = [])).
Proof.
  intros walpha b p sepc Hs [Hz Hl] Hd rooted. destruct (normalise_ok walpha b p sepc Hs Hz Hl) as (pre & es & H1 & _ & H2 & H3 & _).
  rewrite Hd in *. cbn [negb] in *. rewrite andb_true_r in *. fold rooted in H1, H3.
  set (st0 := (if rooted then None else Some 0, rooted, @nil elem)) in *. set (st := nfold (is_unc_b p) true (eats walpha p) es st0) in *.
  assert (Hfl : flags_ok (snd st)) by (eapply nfold_flags; [exact H1|constructor]).
  assert (Hnd : Forall (fun e : elem => fst e <> dot) (snd st)) by (apply no_dot_elements; constructor).
  exists pre, (snd (fst st)), (rev (snd st)). split; [|split; [auto|split; [|split; [|split]]]].
  - rewrite H3. unfold ntext. destruct st as [[c r] s]. reflexivity.
  - destruct Hfl as [Hf _]. apply Forall_rev. rewrite Forall_forall in *. intros x Hx. split; [apply Hf; exact Hx|apply Hnd; exact Hx].
  - intros a e E. destruct Hfl as [_ Hf]. apply (f_equal (@rev elem)) in E. rewrite rev_involutive, rev_app_distr in E. cbn [rev app] in E. rewrite E in Hf.
    cbn [tl] in Hf. rewrite <- (rev_involutive a). apply Forall_rev. exact Hf.
  - intro Hr. apply Forall_rev. unfold st, st0. rewrite Hr. destruct (rooted_no_dots (is_unc_b p) (eats walpha p) es true) as [_ K].
    eapply Forall_impl; [|exact K]. intros e He E. apply He. right. exact E.
  - intros Hr Hpl. rewrite Hr in H1. specialize (Hpl es H1).
    destruct (rel_fold (is_unc_b p) (eats walpha p) _ es H1 Hpl st0) as (c' & r' & Hrel).
    { unfold st0. rewrite Hr. exists [], []. split; [reflexivity|]. split; [reflexivity|]. split; [constructor|]. split; [constructor|auto]. }
    cbv zeta in Hrel. fold st in Hrel. destruct Hrel as (names & ups & Es & _ & Hn & Hu & He). exists (rev ups), (rev names).
    rewrite Es, rev_app_distr. split; [reflexivity|]. split; [apply Forall_rev; exact Hu|]. split.
    + apply Forall_rev. destruct Hfl as [Hf _]. rewrite Es in Hf. apply Forall_app in Hf as [Hf _]. rewrite Forall_forall in *. intros x Hx. apply Hn; [exact Hx|]. apply (Hf x Hx).
    + intro E. rewrite He by exact E. reflexivity.
Qed.
Print Assumptions c28_shape.

(** Normalising twice is normalising once, for rooted paths whose drive is still recognised in the result. *)
Lemma text_result walpha b p sepc r : sep sepc -> text p -> normalise walpha (Some b) p sepc = Some r -> Forall (fun c => c <> 0%N) r ->  text r.
Proof.
  intros Hs Ht Hr Hz. destruct (c28_short walpha b p sepc Hs Ht) as (r' & E & Hle). rewrite Hr in E. apply some_inj in E. subst r'. split; [exact Hz|]. destruct Ht. lia.
Qed.

Lemma join_nz sepc es : sep sepc -> Forall (fun e : elem => Forall (fun c => c <> 0%N) (fst e)) es -> Forall (fun c => c <> 0%N) (join sepc es).
Proof.
  intros Hs. assert (H0 : sepc <> 0%N) by (destruct Hs; subst; discriminate).
  induction 1 as [|[n f] es Hn Hes IH]; [constructor|]. cbn [join flat_map fst snd]. apply Forall_app. split; [|exact IH].
  apply Forall_app. split; [exact Hn|]. destruct f; [constructor; [exact H0|constructor]|constructor].
Qed.
Lemma elems_nz p es : elems p es -> Forall (fun c => c <> 0%N) p -> Forall (fun e : elem => Forall (fun c => c <> 0%N) (fst e)) es.
Proof.
  induction 1 as [|s Hne Hs|s n Hs Hn|s n c r es Hs Hn Hc Hes IH]; intro Hz; [constructor| | |].
  - constructor; [constructor|constructor].
  - apply Forall_app in Hz as [_ Hz]. constructor; [exact Hz|constructor].
  - apply Forall_app in Hz as [_ Hz]. apply Forall_app in Hz as [Hz1 Hz2]. constructor; [exact Hz1|]. apply IH. exact (Forall_inv_tail Hz2).
Qed.
Lemma stack_nz unc dots eat es st : Forall (fun e : elem => Forall (fun c => c <> 0%N) (fst e)) es -> Forall (fun e : elem => Forall (fun c => c <> 0%N) (fst e)) (snd st) ->
  Forall (fun e : elem => Forall (fun c => c <> 0%N) (fst e)) (snd (nfold unc dots eat es st)).
Proof.
  intros He Hst. apply (nfold_inv unc dots eat (fun st => Forall (fun e : elem => Forall (fun c => c <> 0%N) (fst e)) (snd st)) (fun e => Forall (fun c => c <> 0%N) (fst e))); [|exact Hst|exact He].
  intros [[c r] s] e Hs Hq. cbn [snd] in Hs. unfold nstep.
  assert (Hp : Forall (fun e : elem => Forall (fun c => c <> 0%N) (fst e)) (if eqb_name (fst e) [] then s else e :: s)) by (destruct (eqb_name (fst e) []); [exact Hs|constructor; auto]).
  assert (Htl : Forall (fun e : elem => Forall (fun c => c <> 0%N) (fst e)) (tl s)) by (destruct Hs; [constructor|assumption]).
  destruct (dots && eqb_name (fst e) dot); [exact Hs|]. destruct (dots && eqb_name (fst e) dotdot); [|exact Hp].
  destruct c as [[|k]|]; [destruct eat; [exact Hs|exact Hp]|exact Htl|exact Htl].
Qed.

Lemma past_of_len walpha r d l : r = d ++ l -> drive_len walpha r = length d -> past_drive walpha r = l.
Proof. intros -> E. rewrite <- drive_split, E. rewrite skipn_app, skipn_all, Nat.sub_diag. reflexivity. Qed.

Theorem c28_idempotent_rooted : forall walpha b b' p sepc r, sep sepc -> text p -> device p = false -> clean_drive walpha p ->
  sep_at (past_drive walpha p) 0 = true ->
  normalise walpha (Some b) p sepc = Some r ->
  drive_len walpha r = drive_len walpha p -> device r = false ->
  normalise walpha (Some b') r sepc = Some r.
Proof.
  intros walpha b b' p sepc r Hs Ht Hd Hc Hr En Edl Hdr. pose proof Ht as [Hz Hl].
  destruct (normalise_ok walpha b p sepc Hs Hz Hl) as (pre & es & H1 & H2 & H3 & H4 & _).
  rewrite Hd in *. cbn [negb] in *. rewrite andb_true_r in *. rewrite Hr in *. specialize (H3 eq_refl Hc).
  set (st := nfold (is_unc_b p) true (eats walpha p) es (None, true, [])) in *.
  assert (Hfl : flags_ok (snd st)) by (eapply nfold_flags; [exact H1|constructor]).
  destruct (rooted_no_dots (is_unc_b p) (eats walpha p) es true) as [_ Hns]. fold st in Hns.
  assert (Hpz : Forall (fun c => c <> 0%N) (tl (past_drive walpha p))).
  { destruct (past_drive_suffix walpha p) as [y Ey]. rewrite Ey in Hz. apply Forall_app in Hz as [_ Hz]. destruct (past_drive walpha p); [constructor|exact (Forall_inv_tail Hz)]. }
  assert (Hsz : Forall (fun e : elem => Forall (fun c => c <> 0%N) (fst e)) (snd st)) by (apply stack_nz; [eapply elems_nz; eassumption|constructor]).
  rewrite En in H4. apply some_inj in H4. destruct st as [[cst root] stack]. cbn [snd] in *. unfold ntext in H4.
  assert (Hpr : Forall (fun e => proper (fst e)) (rev stack)) by (apply Forall_rev; apply Hfl).
  assert (Hrz : Forall (fun c => c <> 0%N) r).
  { rewrite H4. apply Forall_app. split.
    - rewrite H3. rewrite <- (firstn_skipn (drive_len walpha p) p) in Hz. apply Forall_app in Hz. apply Hz.
    - apply Forall_app. split; [destruct root; [constructor; [destruct Hs; subst; discriminate|constructor]|constructor]|].
      apply join_nz; [exact Hs|]. apply Forall_rev. exact Hsz. }
  pose proof (text_result _ _ _ _ _ Hs Ht En Hrz) as Htr. pose proof Htr as [_ Hlr].
  assert (Epast : past_drive walpha r = (if root then [sepc] else []) ++ join sepc (rev stack)) by (eapply past_of_len; [exact H4|lia]).
  destruct (normalise_ok walpha b' r sepc Hs Hrz Hlr) as (pre2 & es2 & G1 & G2 & G3 & G4 & _).
  rewrite Hdr in *. cbn [negb] in *. rewrite andb_true_r in *.
  assert (Hcr : clean_drive walpha r).
  { intros i Hi1 Hi2 Hi3 Hi4. rewrite Edl in Hi2.
    assert (Ei : forall j, j < drive_len walpha p -> sep_at r j = sep_at p j).
    { intros j Hj. rewrite H4, H3. rewrite <- (sep_at_firstn (drive_len walpha p) p j Hj). unfold sep_at, at_.
      rewrite app_nth1; [reflexivity|]. rewrite firstn_length. pose proof (drive_len_le walpha p). lia. }
    rewrite Ei in Hi3, Hi4 by lia. apply (Hc i); auto. }
  specialize (G3 eq_refl Hcr). rewrite Epast in *.
  assert (Hpre2 : pre2 = pre).
  { rewrite G3, Edl, H4, <- H2. replace (length pre) with (length pre + 0) by lia. rewrite firstn_app_2. cbn [firstn]. apply app_nil_r. }
  assert (Eroot : sep_at ((if root then [sepc] else []) ++ join sepc (rev stack)) 0 = root).
  { destruct root; [apply sep_b; exact Hs|]. cbn [app]. apply join_start. exact Hpr. }
  rewrite Eroot in *.
  assert (Ees : es2 = rev stack).
  { eapply elems_fun; [exact G1|]. destruct root; cbn [app tl]; apply elems_stack; auto. }
  rewrite G4. subst es2. rewrite Hpre2. f_equal. symmetry. etransitivity; [exact H4|]. f_equal. symmetry.
  assert (Hall : Forall (fun e : elem => fst e <> [] /\ ~ special (fst e)) (rev stack)).
  { rewrite Forall_forall in *. intros e He. split; [apply (Hpr e He)|]. apply Hns. apply in_rev. exact He. }
  destruct (push_all (is_unc_b r) (eats walpha r) (rev stack) Hall (if root then None else Some 0) root []) as [c' Ef].
  rewrite Ef. unfold ntext. rewrite rev_involutive, app_nil_r. f_equal.
  assert (Eu : match rev stack with [] => root | _ => root || is_unc_b r end = root); [|exact (f_equal (fun x : bool => if x then [sepc] else []) Eu)].
  destruct root; [destruct (rev stack); reflexivity|]. cbn [orb].
  destruct (rev stack) as [|e l] eqn:Er; [reflexivity|]. destruct (is_unc_b r) eqn:Eu; [|reflexivity]. exfalso.
  destruct (unc_rest walpha r Eu) as [K|K]; rewrite Epast in K.
  - destruct (Forall_inv Hpr) as [K2 _]. cbn [app join flat_map] in K. apply app_eq_nil in K as [K _]. apply app_eq_nil in K as [K _]. contradiction.
  - cbn [app] in K. rewrite join_start in K by exact Hpr. discriminate.
Qed.
Print Assumptions c28_idempotent_rooted.

(** For "/..." and "C:/..." the drive is always recognised again. *)
Theorem c28_idempotent_plain : forall walpha b b' p sepc r, (forall c, sep c -> walpha c = false) ->
  sep sepc -> text p -> lead p = false -> sep_at (past_drive walpha p) 0 = true ->
  normalise walpha (Some b) p sepc = Some r -> normalise walpha (Some b') r sepc = Some r.
Proof.
  intros walpha b b' p sepc r Hw Hs Ht Hl Hr En.
  assert (Hd : device p = false) by (unfold device; unfold lead in Hl; rewrite Hl; reflexivity).
  assert (Hdl := drive_not_lead walpha p Hl).
  assert (Hc : clean_drive walpha p) by (intros i Hi1 Hi2; destruct Hdl as [E|(E & _)]; lia).
  destruct (c28_shape walpha b p sepc Hs Ht Hd) as (pre & root & es & E1 & E2 & E3 & E4 & _). specialize (E2 Hc). rewrite En in E1. apply some_inj in E1.
  destruct (normalise_ok walpha b p sepc Hs (proj1 Ht) (proj2 Ht)) as (pre' & es' & H1 & H2 & H3 & H4 & _).
  rewrite Hd in *. rewrite Hr in *. specialize (H3 eq_refl Hc). cbn [negb] in *. rewrite andb_true_r in *. rewrite En in H4. apply some_inj in H4.
  (* the root stays, as this is no UNC path *)
  assert (Hunc : is_unc_b p = false). { unfold is_unc_b, is_unc. unfold lead in Hl. apply andb_false_iff in Hl as [K|K]; rewrite K; rewrite ?orb_true_r; reflexivity. }
  rewrite Hunc in H4.
  assert (Hroot : forall es st, snd (fst st) = true -> snd (fst (nfold false true (eats walpha p) es st)) = true).
  { intros l st Hst. apply (nfold_inv false true (eats walpha p) (fun st => snd (fst st) = true) (fun _ => True)); [|exact Hst|clear; induction l; constructor; auto].
    intros [[c0 r0] s0] e Hq _. cbn [fst snd] in Hq. subst r0. unfold nstep. cbn [andb negb orb].
    destruct (eqb_name (fst e) dot); [reflexivity|]. destruct (eqb_name (fst e) dotdot); [|reflexivity]. destruct c0 as [[|k]|]; [destruct (eats walpha p); reflexivity|destruct s0; reflexivity|destruct s0; reflexivity]. }
  specialize (Hroot es' (None, true, []) eq_refl).
  assert (Hfl : flags_ok (snd (nfold false true (eats walpha p) es' (None, true, [])))) by (eapply nfold_flags; [exact H1|constructor]).
  destruct (nfold false true (eats walpha p) es' (None, true, [])) as [[cst root'] stack]. cbn [fst snd] in *. subst root'. unfold ntext in H4.
  assert (Hj : sep_at (join sepc (rev stack)) 0 = false) by (apply join_start; apply Forall_rev; apply Hfl).
  apply (c28_idempotent_rooted walpha b b' p sepc r); auto.
  - (* the drive *)
    destruct Hdl as [E0|(E2' & E58 & Ewa)].
    + rewrite E0 in *. cbn [firstn] in H3. subst pre'. cbn [app] in H4.
      assert (Hlr : lead r = false). { rewrite H4. unfold lead. change (sep_at (sepc :: join sepc (rev stack)) 1) with (sep_at (join sepc (rev stack)) 0). rewrite Hj. apply andb_false_r. }
      destruct (drive_not_lead walpha r Hlr) as [K|(_ & _ & K)]; [exact K|]. rewrite H4 in K. change (at_ (sepc :: join sepc (rev stack)) 0) with sepc in K.
      rewrite Hw in K by exact Hs. discriminate.
    + destruct p as [|a [|c p]]; [discriminate|discriminate|]. change (c = 58%N) in E58. subst c. change (walpha a = true) in Ewa.
      rewrite E2' in H3. cbn [firstn] in H3. subst pre'. cbn [app] in H4.
      assert (Hlr : lead r = false). { rewrite H4. unfold lead. apply andb_false_iff. right. reflexivity. }
      rewrite E2'. rewrite H4. unfold drive_len, past_drive. rewrite <- H4.
      assert (E5 : is_unc r = None). { unfold is_unc. unfold lead in Hlr. apply andb_false_iff in Hlr as [K|K]; rewrite K; rewrite ?orb_true_r; reflexivity. }
      assert (E6 : past_ssqs r = r). { unfold past_ssqs. unfold lead in Hlr. apply andb_false_iff in Hlr as [K|K]; rewrite K; destruct (sep_at r 0); reflexivity. }
      rewrite E5, E6. cbv zeta. rewrite H4. change (at_ (a :: 58%N :: sepc :: join sepc (rev stack)) 0) with a. rewrite Ewa. cbn [andb at_ nth N.eqb Pos.eqb skipn length]. lia.
  - (* no device *)
    unfold device. destruct Hdl as [E0|(E2' & E58 & Ewa)].
    + rewrite E0 in *. cbn [firstn] in H3. subst pre'. cbn [app] in H4. rewrite H4. change (sep_at (sepc :: join sepc (rev stack)) 1) with (sep_at (join sepc (rev stack)) 0).
      rewrite Hj, andb_false_r. reflexivity.
    + destruct p as [|a [|c p]]; [discriminate|discriminate|]. change (c = 58%N) in E58. subst c. rewrite E2' in H3. cbn [firstn] in H3. subst pre'. cbn [app] in H4. rewrite H4.
      change (sep_at (a :: 58%N :: sepc :: join sepc (rev stack)) 1) with false. rewrite andb_false_r. reflexivity.
Qed.
Print Assumptions c28_idempotent_plain.

(** For relative paths without other names beginning with a dot. *)
Theorem c28_idempotent_relative : forall walpha b b' p sepc r, sep sepc -> text p ->
  drive_len walpha p = 0 -> sep_at p 0 = false ->
  (forall es, elems p es -> Forall plain_dots es) ->
  normalise walpha (Some b) p sepc = Some r -> drive_len walpha r = 0 ->
  normalise walpha (Some b') r sepc = Some r.
Proof.
  intros walpha b b' p sepc r Hs Ht Hd0 Hrel Hpl En Edl. pose proof Ht as [Hz Hl].
  assert (Hdev : device p = false) by (unfold device; rewrite Hrel; reflexivity).
  assert (Hp : past_drive walpha p = p) by (rewrite <- drive_split, Hd0; reflexivity).
  assert (Heat : eats walpha p = false) by (unfold eats; rewrite Hd0; reflexivity).
  assert (Hunc : forall q, sep_at q 0 = false -> is_unc_b q = false) by (intros q Hq; unfold is_unc_b, is_unc; rewrite Hq; reflexivity).
  destruct (normalise_ok walpha b p sepc Hs Hz Hl) as (pre & es & H1 & H2 & H3 & H4 & _).
  rewrite Hdev in *. cbn [negb] in *. rewrite andb_true_r, Heat, Hp in *. rewrite Hrel in *. rewrite (Hunc p Hrel) in *.
  rewrite Hd0 in H2. apply length_zero_iff_nil in H2. subst pre. cbn [app] in H4.
  set (st := nfold false true false es (Some 0, false, [])) in *.
  assert (Hfl : flags_ok (snd st)) by (eapply nfold_flags; [exact H1|constructor]).
  assert (Hsz : Forall (fun e : elem => Forall (fun c => c <> 0%N) (fst e)) (snd st)) by (apply stack_nz; [eapply elems_nz; eassumption|constructor]).
  destruct (rel_fold false false _ es H1 (Hpl es H1) (Some 0, false, [])) as (c' & r' & Hrelk).
  { exists [], []. split; [reflexivity|]. split; [reflexivity|]. split; [constructor|]. split; [constructor|auto]. }
  cbv zeta in Hrelk. fold st in Hrelk. destruct Hrelk as (names & ups & Es & _ & Hn & Hu & _).
  assert (Hroot : snd (fst st) = false).
  { unfold st. apply (nfold_inv false true false (fun st => snd (fst st) = false) (fun _ => True)); [|reflexivity|clear; induction es; constructor; auto].
    intros [[c0 r0] s0] e Hq _. cbn [fst snd] in Hq. subst r0. unfold nstep. cbn [andb negb orb].
    destruct (eqb_name (fst e) dot); [reflexivity|]. destruct (eqb_name (fst e) dotdot); [|reflexivity]. destruct c0 as [[|k]|]; [reflexivity|destruct s0; reflexivity|destruct s0; reflexivity]. }
  rewrite En in H4. apply some_inj in H4. destruct st as [[cst root] stack]. cbn [fst snd] in *. subst root. unfold ntext in H4. cbn [app] in H4.
  assert (Hpr : Forall (fun e => proper (fst e)) (rev stack)) by (apply Forall_rev; apply Hfl).
  assert (Hrz : Forall (fun c => c <> 0%N) r) by (rewrite H4; apply join_nz; [exact Hs|]; apply Forall_rev; exact Hsz).
  pose proof (text_result _ _ _ _ _ Hs Ht En Hrz) as Htr. pose proof Htr as [_ Hlr].
  assert (Hrs : sep_at r 0 = false) by (rewrite H4; apply join_start; exact Hpr).
  assert (Hdr : device r = false) by (unfold device; rewrite Hrs; reflexivity).
  assert (Hpr2 : past_drive walpha r = r) by (rewrite <- drive_split, Edl; reflexivity).
  assert (Heat2 : eats walpha r = false) by (unfold eats; rewrite Edl; reflexivity).
  destruct (normalise_ok walpha b' r sepc Hs Hrz Hlr) as (pre2 & es2 & G1 & G2 & G3 & G4 & _).
  rewrite Hdr in *. cbn [negb] in *. rewrite andb_true_r, Heat2, Hpr2 in *. rewrite Hrs in *. rewrite (Hunc r Hrs) in *.
  rewrite Edl in G2. apply length_zero_iff_nil in G2. subst pre2. cbn [app] in G4. rewrite G4. f_equal. rewrite H4.
  assert (Ees : es2 = rev ups ++ rev names).
  { rewrite <- rev_app_distr, <- Es. eapply elems_fun; [exact G1|]. rewrite H4. apply elems_stack; auto. }
  rewrite Ees. unfold nfold. rewrite fold_left_app. fold (nfold false true false (rev ups) (Some 0, false, [])).
  rewrite push_ups by (apply Forall_rev; exact Hu). rewrite rev_involutive, app_nil_r.
  rewrite Es in Hpr. rewrite rev_app_distr in Hpr. apply Forall_app in Hpr as [_ Hpn].
  assert (Hall : Forall (fun e : elem => fst e <> [] /\ ~ special (fst e)) (rev names)).
  { apply Forall_rev in Hn. rewrite Forall_forall in *. intros e He. assert (Hne : fst e <> []) by apply (Hpn e He). split; [exact Hne|].
    intro K. specialize (Hn e He Hne). destruct K as [K|K]; rewrite K in Hn; discriminate. }
  destruct (push_all false false (rev names) Hall (Some 0) (match rev ups with [] => false | _ => false || false end) ups) as [c2 Ef].
  unfold nfold in Ef. etransitivity; [exact (f_equal (ntext sepc) Ef)|]. unfold ntext. rewrite rev_involutive, Es.
  destruct (rev names), (rev ups); reflexivity.
Qed.
Print Assumptions c28_idempotent_relative.

(** In general normalising is not idempotent, and a ".." may follow a name: elements that begin with a dot are not
    counted. *)
Theorem c28_idempotent_refuted :
  normalise ascii_alpha (Some 0%N) (bs "a/.git/../..") 92 = Some (bs "a\..") /\
  normalise ascii_alpha (Some 0%N) (bs "a\..") 92 = Some [].
Proof. vm_compute. auto. Qed.
Print Assumptions c28_idempotent_refuted.

(** ... and a relative path may become one with a drive. *)
Theorem c28_drive_appears_refuted :
  normalise ascii_alpha (Some 0%N) (bs "./c:./foo") 92 = Some (bs "c:.\foo") /\
  normalise ascii_alpha (Some 0%N) (bs "c:.\foo") 92 = Some (bs "c:foo").
Proof. vm_compute. auto. Qed.

(** Doubled separators within a share corrupt it: bytes of the old path show. *)
Theorem c28_share_refuted :
  normalise ascii_alpha (Some 0%N) (bs "//srv///shr/x") 47 = Some (bs "//srv/shrhr/x").
Proof. vm_compute. auto. Qed.
Print Assumptions c28_share_refuted.

(** A device path loses one of its two leading separators. *)
Theorem c28_device_refuted :
  normalise ascii_alpha (Some 0%N) (bs "\\.\foo") 92 = Some (bs "\.\foo").
Proof. vm_compute. auto. Qed.
Print Assumptions c28_device_refuted.

(** A byte before the buffer is read. *)
Theorem c28_reads_before_refuted : normalise ascii_alpha None (bs "a/..") 92 = None.
Proof. vm_compute. auto. Qed.
Print Assumptions c28_reads_before_refuted.

Example c28_example_rooted : let p := bs "C:/a//./b/../.git/c/" in
  text p /\ device p = false /\ lead p = false /\ sep_at (past_drive ascii_alpha p) 0 = true /\
  normalise ascii_alpha (Some 0%N) p 92 = Some (bs "C:\a\.git\c\").
Proof.
  cbv zeta. split; [split; [vm_compute; repeat (constructor; [lia|]); constructor|vm_compute; reflexivity]|]. vm_compute. auto.
Qed.
Example c28_example_unc : let p := bs "\\srv\shr/x/../.." in
  text p /\ device p = false /\ drive_len ascii_alpha p = 9 /\ sep_at (past_drive ascii_alpha p) 0 = true /\
  normalise ascii_alpha (Some 0%N) p 92 = Some (bs "\\srv\shr") /\ drive_len ascii_alpha (bs "\\srv\shr") = 9.
Proof.
  cbv zeta. split; [split; [vm_compute; repeat (constructor; [lia|]); constructor|vm_compute; reflexivity]|]. vm_compute. auto 10.
Qed.
Example c28_example_relative : let p := bs "../a/./../../b//c" in
  text p /\ drive_len ascii_alpha p = 0 /\ sep_at p 0 = false /\ (forall es, elems p es -> Forall plain_dots es) /\
  normalise ascii_alpha (Some 0%N) p 47 = Some (bs "../../b/c") /\ drive_len ascii_alpha (bs "../../b/c") = 0.
Proof.
  cbv zeta. split; [split; [vm_compute; repeat (constructor; [lia|]); constructor|vm_compute; reflexivity]|].
  split; [reflexivity|]. split; [reflexivity|]. split; [|vm_compute; auto].
  intros es He.
  assert (Hx : elems (bs "../a/./../../b//c") [(bs "..", true); (bs "a", true); (bs ".", true); (bs "..", true); (bs "..", true); (bs "b", true); (bs "c", false)]).
  { assert (Hpr : forall n, n <> [] -> forallb (fun c => negb (is_separator c)) n = true -> proper n).
    { intros n Hn Hb. split; [exact Hn|]. rewrite Forall_forall. intros c Hc. rewrite forallb_forall in Hb. specialize (Hb c Hc). apply negb_true_iff in Hb. apply nsep_b. exact Hb. }
    assert (H47 : sep 47%N) by (unfold sep; auto).
    vm_compute.
    repeat match goal with
           | |- elems _ ((?n, true) :: ?es) => refine (EL_more [] n 47%N _ es (Forall_nil _) _ H47 _); [apply Hpr; [discriminate|reflexivity]|]
           | |- elems _ [(?n, false)] => refine (EL_last [47%N] n _ _); [constructor; [exact H47|constructor]|apply Hpr; [discriminate|reflexivity]]
           end. }
  rewrite (elems_fun _ _ He _ Hx). repeat (constructor; [unfold plain_dots; intro K; first [discriminate|left; reflexivity|right; reflexivity]|]). constructor.
Qed.
