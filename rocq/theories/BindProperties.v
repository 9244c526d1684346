From Verif Require Import Base BindModel BindSpec BindProofs BindResolve.
Open Scope nat_scope.

Section Properties.
Variable esc : option (list N).

Lemma fresh_pos gs g : look gs g [] = g -> fresh g = pos gs g 0 [] [].
Proof. intros E. unfold fresh, pos. now rewrite E. Qed.
Lemma yields_unique b r l : yields b r l -> forall l', yields b r l' -> l = l'.
Proof.
  induction 1 as [r r' E1 E2|r r' bd m l E1 E2 Y IH]; intros l' Y'.
  - inversion Y' as [? ? F1 F2|? ? bd m l F1 F2 Y2]; subst; [reflexivity|congruence].
  - inversion Y' as [? ? F1 F2|? ? bd' m' l2 F1 F2 Y2]; subst; [congruence|]. rewrite E1 in F1. injection F1 as <- <-. rewrite E2 in F2. injection F2 as <-. f_equal. now apply IH.
Qed.

(** ** C35 *)
(** whatever was bound, the keys typed resolve to the chords they begin with: the longest first, and those bound to the same chord in the order bound *)
Theorem c35_resolve h b B gr ok g ks r fin : Forall (good_op esc) h -> history esc h = Some (b, B, gr, ok) -> In g gr -> length ks <= 16 ->
  typed b (fresh g) ks = Some (r, fin) -> yields b r (expected B g ks).
Proof.
  intros F Hh G Len T. destruct (history_ok esc h b B gr ok F Hh) as [gs H]. destruct (gr_ok _ _ _ _ _ H g G) as [R1 R2].
  rewrite (fresh_pos gs g R1) in T. destruct (typed_pos b B gr ok gs H g ks [] r fin R2 T Len) as (q & -> & Lg & _). cbn [app] in *.
  apply (offers_yields b g 0 ks); [|reflexivity]. exact (offers_pos b B gr ok gs H g 0 ks q Lg).
Qed.
(** the keys are resolved when no bound chord goes on, and not before *)
Theorem c35_more h b B gr ok g ks r fin : Forall (good_op esc) h -> history esc h = Some (b, B, gr, ok) -> In g gr -> length ks <= 16 -> ks <> [] ->
  typed b (fresh g) ks = Some (r, fin) ->
  ((exists k s mi, In (g, ks ++ k :: s, mi) B) -> fin = false) /\ (ok = true -> fin = false -> exists k s mi, In (g, ks ++ k :: s, mi) B).
Proof.
  intros F Hh G Len Ne T. destruct (history_ok esc h b B gr ok F Hh) as [gs H]. destruct (gr_ok _ _ _ _ _ H g G) as [R1 R2].
  rewrite (fresh_pos gs g R1) in T. destruct (typed_pos b B gr ok gs H g ks [] r fin R2 T Len) as (q & -> & Lg & P). cbn [app] in *. split.
  - intros (k & s & mi & X). destruct fin; [|reflexivity]. exfalso. destruct (h_B _ _ _ _ _ H _ _ _ X) as (_ & _ & Y).
    replace (ks ++ k :: s) with ((ks ++ [k]) ++ s) in Y by (now rewrite <- app_assoc). apply (look_closed_app b B gr ok gs H) in Y. now apply Y.
  - intros Hok ->. destruct P as [_ P]. destruct (P Ne) as [k L]. destruct (h_path _ _ _ _ _ H Hok _ _ L) as [E|(s & mi & E)]; [now destruct ks|]. exists k, s, mi. now rewrite <- app_assoc in E.
Qed.
(** nothing undefined happens *)
Theorem c35_defined h b B gr ok g ks r k : Forall (good_op esc) h -> history esc h = Some (b, B, gr, ok) -> In g gr -> length ks <= 15 ->
  typed b (fresh g) ks = Some (r, false) -> exists r' fin, typed b (fresh g) (ks ++ [k]) = Some (r', fin).
Proof.
  intros F Hh G Len T. destruct (history_ok esc h b B gr ok F Hh) as [gs H]. destruct (gr_ok _ _ _ _ _ H g G) as [R1 R2].
  assert (X : forall l r0, typed b r0 l = Some (r, false) -> typed b r0 (l ++ [k]) = match step b r k with None => None | Some x => Some x end).
  { induction l as [|a l IH]; intros r0 E; cbn [typed app] in *.
    - injection E as ->. destruct (step b r k) as [[r1 []]|]; reflexivity.
    - destruct (step b r0 a) as [[r1 []]|]; [destruct l; discriminate|now apply IH|discriminate]. }
  rewrite (X _ _ T). rewrite (fresh_pos gs g R1) in T. destruct (typed_pos b B gr ok gs H g ks [] r false R2 T ltac:(cbn [app]; lia)) as (q & -> & Lg & P1 & _). cbn [app] in *.
  unfold step. cbn [pos r_keys]. unfold max_keys. replace (16 <=? length ks) with false by lia.
  fold (pos gs g 0 ks q).
  change (mkR (r_node (pos gs g 0 ks q)) (r_group (pos gs g 0 ks q)) (r_pending (pos gs g 0 ks q)) (r_tail (pos gs g 0 ks q)) (r_params (pos gs g 0 ks q)) (r_acc (pos gs g 0 ks q)) (r_plen (pos gs g 0 ks q)) (r_ppar (pos gs g 0 ks q)) (ks ++ [k])) with (pos gs g 0 (ks ++ [k]) q).
  destruct Lg as [L _]. rewrite (step_impl_pos b B gr ok gs H g 0 (ks ++ [k]) q k L). destruct (_ =? 0); eauto.
Qed.
(** binding a chord changes nothing for keys that do not begin with it *)
Theorem c35_others h g' chord m id b B gr ok b' B' gr' ok' g ks r r' fin fin' L L' : Forall (good_op esc) (h ++ [OBind g' chord m id]) ->
  history esc h = Some (b, B, gr, ok) -> history esc (h ++ [OBind g' chord m id]) = Some (b', B', gr', ok') -> In g gr -> length ks <= 16 ->
  (g' = g -> forall keys, translate esc chord = Some keys -> forall s, ks <> keys ++ s) ->
  typed b (fresh g) ks = Some (r, fin) -> typed b' (fresh g) ks = Some (r', fin') -> yields b r L -> yields b' r' L' -> L' = L.
Proof.
  intros F H1 H2 G Len D T1 T2 Y1 Y2. assert (F1 : Forall (good_op esc) h) by (now apply Forall_app in F).
  pose proof (c35_resolve _ _ _ _ _ _ _ _ _ F1 H1 G Len T1) as Z1.
  assert (X : exec esc (b, B, gr, ok) (OBind g' chord m id) = Some (b', B', gr', ok')).
  { unfold history in *. revert H1 H2. generalize (binder0, @nil entry, [1], true) as s. induction h as [|o h' IH]; intros s E1 E2; cbn [execs app] in *.
    - injection E1 as ->. now destruct (exec esc (b, B, gr, ok) (OBind g' chord m id)).
    - destruct (exec esc s o) as [s'|]; [|discriminate]. assert (F' : Forall (good_op esc) (h' ++ [OBind g' chord m id])) by (now apply Forall_inv_tail in F). assert (Fh : Forall (good_op esc) h') by (now apply Forall_inv_tail in F1). now apply (IH F' Fh s'). }
  assert (GR : gr' = gr /\ (B' = B \/ exists keys, translate esc chord = Some keys /\ B' = B ++ [(g', keys, (m, id))])).
  { cbn [exec] in X. destruct (existsb (Nat.eqb g') gr); [|discriminate]. destruct (bind esc b g' chord m id false) as [[b1 []]|]; [|injection X as _ <- <- _; auto|discriminate].
    destruct (translate esc chord) as [keys|]; [|discriminate]. injection X as _ <- <- _. split; [reflexivity|]. right. exists keys. auto. }
  destruct GR as [-> GB]. pose proof (c35_resolve _ _ _ _ _ _ _ _ _ F H2 G Len T2) as Z2.
  rewrite <- (yields_unique _ _ _ Z1 _ Y1), <- (yields_unique _ _ _ Z2 _ Y2). destruct GB as [->|(keys & TR & ->)]; [reflexivity|].
  unfold expected. assert (W : forall n, flat_map (fun q => map (fun mi => (mi, Nat.max 1 (length q))) (bound_to (B ++ [(g', keys, (m, id))]) g q)) (beginnings n ks) = flat_map (fun q => map (fun mi => (mi, Nat.max 1 (length q))) (bound_to B g q)) (beginnings n ks)); [|apply W].
  assert (V : forall n, bound_to (B ++ [(g', keys, (m, id))]) g (firstn n ks) = bound_to B g (firstn n ks)).
  { intros n. rewrite bound_snoc. destruct (Nat.eqb_spec g' g) as [E|E]; [|now rewrite app_nil_r]. cbn [andb]. destruct (keys_eq keys (firstn n ks)) eqn:K; [|now rewrite app_nil_r]. exfalso.
    apply keys_eq_iff in K. apply (D E keys TR (skipn n ks)). now rewrite K, firstn_skipn. }
  induction n as [|n IH]; cbn [beginnings flat_map]; rewrite V; [reflexivity|now rewrite IH].
Qed.

(** ** C36 *)
(** whatever the modules answer, what is offered to them is what the bindings say for the keys not claimed before *)
Theorem c36_session h b B gr ok g ks r fin answers : Forall (good_op esc) h -> history esc h = Some (b, B, gr, ok) -> In g gr -> ks <> [] -> length ks <= 15 ->
  typed b (fresh g) ks = Some (r, fin) -> Forall (fun a => In (fst a) gr) answers ->
  session b r answers = Some (told B g ks (expected B g ks) answers).
Proof.
  intros F Hh G Ne Len T FA. destruct (history_ok esc h b B gr ok F Hh) as [gs H]. destruct (gr_ok _ _ _ _ _ H g G) as [R1 R2].
  rewrite (fresh_pos gs g R1) in T. destruct (typed_pos b B gr ok gs H g ks [] r fin R2 T ltac:(cbn [app]; lia)) as (q & -> & Lg & _). cbn [app] in *.
  apply (session_ok b B gr ok gs H answers _ g 0 ks); try assumption; [exact (offers_pos b B gr ok gs H g 0 ks q Lg)|exact (expected_len B g ks Ne)].
Qed.
(** the chords claimed are the keys typed, in order, from the first *)
Lemma told_in_order B : forall answers g ks L, Forall (fun e => 1 <= snd e <= length ks) L -> exists rest, ks = concat (claimed answers (told B g ks L answers)) ++ rest /\ Forall (fun c => c <> []) (claimed answers (told B g ks L answers)).
Proof.
  induction answers as [|[g' pass] answers IH]; intros g ks L F; [exists ks; split; [reflexivity|constructor]|]. cbn [told]. destruct L as [|[[m id] len] L]; [exists ks; split; [reflexivity|constructor]|].
  pose proof (Forall_inv F) as F0. apply Forall_inv_tail in F. cbn [snd] in F0. cbn [claimed]. destruct pass; cbn [andb].
  - apply IH. destruct (g' =? g); [exact F|]. destruct ks as [|k ks]; [constructor|]. apply (expected_len B g' (k :: ks)). discriminate.
  - destruct (IH g' (skipn len ks) (match skipn len ks with [] => [] | _ => expected B g' (skipn len ks) end)) as (rest & E1 & E2).
    { destruct (skipn len ks) as [|k l] eqn:E; [constructor|]. apply (expected_len B g' (k :: l)). discriminate. }
    exists rest. split.
    + cbn [concat]. rewrite <- app_assoc, <- E1. symmetry. apply firstn_skipn.
    + constructor; [|exact E2]. intros X. apply (f_equal (@length N)) in X. rewrite firstn_length in X. cbn [length] in X. lia.
Qed.
Theorem c36_in_order h b B gr ok g ks r fin answers l : Forall (good_op esc) h -> history esc h = Some (b, B, gr, ok) -> In g gr -> ks <> [] -> length ks <= 15 ->
  typed b (fresh g) ks = Some (r, fin) -> Forall (fun a => In (fst a) gr) answers -> session b r answers = Some l ->
  (exists rest, ks = concat (claimed answers l) ++ rest) /\ Forall (fun c => c <> []) (claimed answers l).
Proof.
  intros F Hh G Ne Len T FA S. rewrite (c36_session _ _ _ _ _ _ _ _ _ _ F Hh G Ne Len T FA) in S. injection S as <-.
  destruct (told_in_order B answers g ks (expected B g ks) (expected_len B g ks Ne)) as (rest & E1 & E2). split; [now exists rest|exact E2].
Qed.
(** when nothing is found the resolver is as new, whatever was typed *)
Lemma walk_none b : forall f r r', walk f b r = Some (r', None) -> r' = fresh (r_group r).
Proof.
  induction f as [|f IH]; intros r r' E; cbn [walk] in E; destruct (r_node r) eqn:X; try (injection E as <-; reflexivity); [discriminate|].
  destruct (get b (S n)) as [nd|]; [|discriminate]. cbv zeta in E.
  assert (W : forall x, walk f b (at_node r x) = Some (r', None) -> r' = fresh (r_group r)) by (intros x Y; exact (IH _ _ Y)).
  destruct (n_bound nd); [|exact (W _ E)]. destruct (n_key nd =? 0)%N; [discriminate|]. destruct (0 <=? _)%Z; [|exact (W _ E)].
  destruct (nth_error _ _); [|discriminate]. destruct (n_key nd =? _)%N; [discriminate|exact (W _ E)].
Qed.
Theorem c36_done b r r' : next b r = Some (r', None) -> r' = fresh (r_group r).
Proof.
  unfold next. destruct (r_pending r); [|apply walk_none]. set (r1 := mkR _ _ _ _ _ _ _ _ _). destruct (_ || _); [intros E; injection E as <-; reflexivity|].
  destruct (push b r1 _) as [r2|] eqn:P; [|discriminate]. intros E. apply walk_none in E. rewrite E. f_equal. clear E r'.
  change (r_group r) with (r_group r1). revert P. generalize (skipn (r_tail r1) (r_keys r1)) as ks. generalize r1 as r0. intros r0 ks. revert r0. induction ks as [|k ks IH]; intros r0 P; cbn [push] in P; [now injection P as ->|].
  assert (G : forall r3 d, step_impl b r0 k = Some (r3, d) -> r_group r3 = r_group r0).
  { intros r3 d E. unfold step_impl in E. destruct (find_child b (r_node r0) k) as [[|c]|]; [now injection E as <- _| |discriminate]. destruct (get b (S c)) as [n|]; [|discriminate]. cbv zeta in E.
    apply (f_equal (fun o : option (resolver * bool) => match o with Some (x, _) => r_group x | None => 0 end)) in E. cbv beta iota in E. rewrite <- E. cbn [r_group]. destruct (n_params n); [reflexivity|]. destruct (r_ppar r0); reflexivity. }
  destruct (step_impl b r0 k) as [[r3 []]|] eqn:E; [|rewrite <- (G _ _ eq_refl); now apply IH|discriminate]. injection P as <-. now apply G with true.
Qed.
End Properties.
Print Assumptions c35_resolve.
Print Assumptions c35_more.
Print Assumptions c35_defined.
Print Assumptions c35_others.
Print Assumptions c36_session.
Print Assumptions c36_in_order.
Print Assumptions c36_done.

(** ** Examples: C-x C-c bound twice, C-x, then a second group *)
Local Arguments OBind g%nat chord m%N id%N.
Definition bytes_in (s : string) : list N := map N_of_ascii (lit s).
Definition hist1 : list op :=
  [OBind 1 (bytes_in "^x^c") 7 1; OBind 1 (bytes_in "^x") 8 2; OBind 1 (bytes_in "\C-x\C-c") 9 3; OBind 1 [] 7 4; OGroup (bytes_in "menu"); OBind 6 (bytes_in "^c") 9 5].
Example hist1_good : Forall (good_op None) hist1.
Proof. repeat constructor; cbn; discriminate. Qed.
Example hist1_ok : match history None hist1 with
  | Some (b, B, gr, ok) => ok = true /\ In 6 gr /\ length B = 5 /\
    match typed b (fresh 1) [24; 3]%N with
    | Some (r, fin) => fin = true /\ expected B 1 [24; 3]%N = [(7%N, 1%N, 2); (9%N, 3%N, 2); (8%N, 2%N, 1); (7%N, 4%N, 1)] /\
        session b r [(1, true); (1, false)] = Some [(7, 1, [24; 3]); (9, 3, [24; 3])]%N /\
        session b r [(1, true); (1, true); (6, false); (6, false); (6, false)] = Some [(7, 1, [24; 3]); (9, 3, [24; 3]); (8, 2, [24]); (9, 5, [3])]%N
    | None => False
    end
  | None => False
  end.
Proof. vm_compute. split; [reflexivity|]. split; [now left|]. split; [reflexivity|]. split; [reflexivity|]. split; [reflexivity|]. split; reflexivity. Qed.

(** ** What does not hold *)
(** a chord of sixteen keys can be bound but is never found: its depth does not fit its four bits *)
Theorem c35_resolve_refuted_long : exists b B gr ok r, history None [OBind 1 (repeat 97%N 16) 7 1] = Some (b, B, gr, ok) /\ B = [(1, repeat 97%N 16, (7, 1)%N)] /\
  typed b (fresh 1) (repeat 97%N 16) = Some (r, true) /\ expected B 1 (repeat 97%N 16) = [(7%N, 1%N, 16)] /\ yields b r [].
Proof.
  destruct (history None [OBind 1 (repeat 97%N 16) 7 1]) as [[[[b B] gr] ok]|] eqn:E; [|vm_compute in E; discriminate].
  vm_compute in E. injection E as <- <- <- <-. eexists _, _, _, _, _. split; [reflexivity|]. split; [reflexivity|]. split; [vm_compute; reflexivity|]. split; [vm_compute; reflexivity|].
  eapply y_none; [vm_compute; reflexivity|reflexivity].
Qed.
(** binding the empty chord a second time in a group reads before the chord *)
Theorem c35_empty_twice_refuted : exists b, bind None binder0 1 [] 7 1 false = Some (b, true) /\ bind None b 1 [] 7 2 false = None.
Proof. eexists. split; vm_compute; reflexivity. Qed.
(** asking for a group can give another one, whose name has the same hash *)
Theorem c35_group_refuted : exists b1 b2 g1 g2, create_group binder0 (bytes_in "ac_") = (b1, Some g1) /\ create_group b1 (bytes_in "alp") = (b2, Some g2) /\ g1 <> g2 /\
  get_group b2 (bytes_in "ac_") = Some g2.
Proof. eexists _, _, _, _. split; [vm_compute; reflexivity|]. split; [vm_compute; reflexivity|]. split; [discriminate|vm_compute; reflexivity]. Qed.
(** keys typed are dropped without being offered to anyone when a seventeenth is needed, though each alone is bound *)
Theorem c36_kept_refuted : exists b B gr ok r, history None [OBind 1 (repeat 97%N 20) 7 1; OBind 1 (repeat 97%N 1) 7 2] = Some (b, B, gr, ok) /\
  typed b (fresh 1) (repeat 97%N 17) = Some (r, false) /\ r = fresh 1 /\ bound_to B 1 [97]%N = [(7, 2)]%N.
Proof.
  destruct (history None [OBind 1 (repeat 97%N 20) 7 1; OBind 1 (repeat 97%N 1) 7 2]) as [[[[b B] gr] ok]|] eqn:E; [|vm_compute in E; discriminate].
  vm_compute in E. injection E as <- <- <- <-. eexists _, _, _, _, _. split; [reflexivity|]. split; [vm_compute; reflexivity|]. split; vm_compute; reflexivity.
Qed.
(** a chord of 63 keys or more is silently cut to 63 *)
Theorem c35_cut_refuted : exists b B gr ok, history None [OBind 1 (repeat 97%N 70) 7 1] = Some (b, B, gr, ok) /\ B = [(1, repeat 97%N 63, (7, 1)%N)].
Proof. eexists _, _, _, _. split; vm_compute; reflexivity. Qed.
(** chords with parameters: ESC [ * ; * A is bound with parameters *)
Definition bound3 (c1 c2 : list N) : option binder :=
  match bind None binder0 1 (bytes_in "\e[*;*A") 7 1 true with
  | Some (b, _) => match bind None b 1 c1 7 2 false with
    | Some (b, _) => match bind None b 1 c2 7 3 false with Some (b, _) => Some b | None => None end
    | None => None end
  | None => None end.
Definition offered (b : option binder) (ks : list N) (answers : list (nat * bool)) : option (list (N * N * list N)) :=
  match b with
  | Some b => match typed b (fresh 1) ks with Some (r, true) => session b r answers | _ => None end
  | None => None
  end.
(** matched to the end it works *)
Example params_ok : offered (bound3 [27]%N []) (27%N :: bytes_in "[12;345A") [(1, false)] = Some [(7%N, 1%N, 27%N :: bytes_in "[12;345A")].
Proof. vm_compute. reflexivity. Qed.
(** but when the match fails after a first parameter of two digits, the chord ESC alone is not found though it is bound *)
Theorem c36_params_refuted : offered (bound3 [27]%N [27; 91]%N) (27%N :: bytes_in "[12;x") [(1, true); (1, true)] = Some [] /\
  offered (bound3 [27]%N [27; 91]%N) (27%N :: bytes_in "[x") [(1, true); (1, true)] = Some [(7, 3, [27; 91]); (7, 2, [27])]%N.
Proof. split; vm_compute; reflexivity. Qed.
(** and when the keys are then claimed one by one by a binding for any key, the resolver takes more than one each time and then looks
    past the keys that were typed *)
Theorem c36_inside_refuted : offered (bound3 [120]%N []) (27%N :: bytes_in "[123;x") [(1, false)] = Some [(7%N, 3%N, 27%N :: bytes_in "[1")] /\
  offered (bound3 [120]%N []) (27%N :: bytes_in "[123;x") [(1, false); (1, false); (1, false)] = None.
Proof. split; vm_compute; reflexivity. Qed.
Print Assumptions c35_resolve_refuted_long.
Print Assumptions c35_empty_twice_refuted.
Print Assumptions c35_group_refuted.
Print Assumptions c36_kept_refuted.
Print Assumptions c35_cut_refuted.
Print Assumptions c36_params_refuted.
Print Assumptions c36_inside_refuted.
