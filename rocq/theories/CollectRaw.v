(** Proofs about CollectModel: all of collect_words. *)
From Verif Require Import Base DoskeyModel DoskeySpec DoskeyProofs CmdTokModel CmdTokSpec CmdTokProofs CmdTokRem CmdTokLoop CmdTokCommands CmdTokWords CmdTokProperties
  CollectModel CollectSpec CollectProofs CollectTokens CollectWords CollectAll CollectStrip.

(** ** No word is quoted or builtin at first *)
Definition fresh_word (w : word) : Prop := quoted w = false /\ builtin w = false.
Lemma tokens_fresh line hi base old : forall ts first, Forall fresh_word (all_tokens line hi base old first ts).
Proof.
  induction ts as [|[[o n] ra] ts IH]; intros first; cbn [all_tokens]; [constructor|]. apply Forall_app. split; [|apply IH]. unfold token_words.
  destruct (plus_word line (base + o) n) as [o' m]. cbv zeta.
  destruct (_ && _); [destruct (Nat.ltb _ _)|]; repeat (apply Forall_cons; [split; reflexivity|]); constructor.
Qed.
Lemma all_commands_fresh alias deprecated line stop : forall cs ws f, all_commands alias deprecated line stop cs = Some (ws, f) -> Forall fresh_word ws.
Proof.
  induction cs as [|[[o n] al] cs IH]; intros ws f H; cbn [all_commands] in H; [injection H as <- _; constructor|].
  destruct (command_words alias deprecated line stop (o, n, al)) as [g|] eqn:G; [|discriminate].
  destruct (all_commands alias deprecated line stop cs) as [[rest f']|]; [|discriminate]. injection H as <- _. apply Forall_app. split; [|exact (IH _ _ eq_refl)].
  unfold command_words in G. cbv zeta in G. destruct (words _ _ _) as [ts|]; [|discriminate]. injection G as <-. apply Forall_app. split; [|apply tokens_fresh].
  destruct (_ && alias _); repeat (apply Forall_cons; [split; reflexivity|]); constructor.
Qed.
Lemma merge_fresh line rws : Forall fresh_word rws -> Forall fresh_word (merge_dots line rws).
Proof.
  intros F. destruct rws as [|w [|c r]]; [exact F|exact F|]. cbn [merge_dots]. destruct (_ && _); [|exact F].
  pose proof (Forall_inv_tail F) as F2. constructor; [|exact (Forall_inv_tail F2)]. destruct (Forall_inv F2) as [X Y]. split; assumption.
Qed.

(** The end word *)
Definition tail_ok (cursor : nat) (stopc : bool) (gs : list (list word)) (tail : list word) : Prop :=
  (tail = [] /\ exists ws w, concat gs = ws ++ [w] /\ (stopc = true -> cursor <= end_of w)) \/
  (tail = [mkw cursor 0 (is_nil (last gs [])) false false false false] /\
   (concat gs = [] \/ (stopc = true /\ exists ws w, concat gs = ws ++ [w] /\ end_of w < cursor))).

Lemma add_end_ok cursor stopc gs : exists tail, rev (add_end_word cursor stopc (is_nil (last gs [])) (rev (concat gs))) = concat gs ++ tail /\ tail_ok cursor stopc gs tail.
Proof.
  unfold tail_ok. destruct (concat gs) as [|w ws _] eqn:E using rev_ind.
  - cbn [rev add_end_word]. eexists. split; [reflexivity|]. right. split; [reflexivity|left; reflexivity].
  - rewrite rev_app_distr. cbn [rev app add_end_word]. fold (end_of w). destruct (stopc && Nat.ltb (end_of w) cursor) eqn:B.
    + apply andb_true_iff in B as [-> B]. apply Nat.ltb_lt in B. eexists [_]. cbn [rev]. rewrite rev_involutive. split; [reflexivity|]. right. split; [reflexivity|].
      right. split; [reflexivity|]. exists ws, w. auto.
    + exists []. cbn [rev]. rewrite rev_involutive, app_nil_r. split; [reflexivity|]. left. split; [reflexivity|]. exists ws, w. split; [reflexivity|].
      intros ->. cbn [andb] in B. apply Nat.ltb_ge in B. exact B.
Qed.

Lemma tail_laid line cursor (stopc : bool) lo gs tail : cursor <= length line -> let stop := if stopc then cursor else length line in
  tail_ok cursor stopc gs tail -> lo <= stop -> (concat gs = [] -> lo = 0) -> laid_out line lo stop (concat gs) -> laid_out line lo stop (concat gs ++ tail).
Proof.
  intros CL stop T LS LZ L. destruct T as [(-> & _)|(-> & [CG|(-> & ws & w & CG & E)])].
  - rewrite app_nil_r. exact L.
  - rewrite CG. cbn [app laid_out end_of]. unfold end_of. cbn [o_ n_]. specialize (LZ CG). assert (cursor <= stop) by (unfold stop; destruct stopc; lia). split; [left; lia|]. split; [lia|]. split; lia.
  - apply laid_app with (mid := cursor); [apply Nat.le_refl|exact L|]. cbn [laid_out end_of]. unfold end_of. cbn [o_ n_]. split; [left; lia|]. split; [lia|]. subst stop. cbv iota. split; lia.
Qed.
Section Collect.
Variable lookup : bytes -> option bytes.
Variable alias : bytes -> bool.
Variable deprecated : bytes -> bool.
Variables enhanced dots : bool.

Definition flag_ok (line : bytes) (c : nat * nat * bool) : Prop := let '(o, n, al) := c in (al = true <-> alias_place enhanced line o) \/ n = 0.

Lemma bounds_ok line cursor (stopc : bool) : let stop := if stopc then cursor else length line in stop <= length line ->
  exists cs, command_bounds lookup enhanced line cursor stopc = Some cs /\ cs <> [] /\ in_order line stop true 0 (map fst cs) /\ Forall (flag_ok line) cs.
Proof.
  intros stop SL. unfold command_bounds. cbv zeta. fold stop. assert (LF : length (firstn stop line) = stop) by (rewrite firstn_length; lia).
  destruct (commands_ranges lookup enhanced (firstn stop line)) as (xs & -> & IO & NE). rewrite LF in IO. destruct xs as [|x xs].
  - assert (Z : stop = 0).
    { destruct (firstn stop line) eqn:E; [cbn [length] in LF; lia|]. exfalso. apply NE; [discriminate|reflexivity]. }
    eexists. split; [reflexivity|]. split; [discriminate|]. split.
    + cbn [map fst in_order]. rewrite Z. split; [lia|]. split; [lia|]. split; [intros i I; lia|]. split; [discriminate|]. split; [lia|]. split; [intros i I; lia|left; lia].
    + constructor; [|constructor]. cbn [flag_ok]. right. reflexivity.
  - eexists. split; [reflexivity|]. set (u := until stopc cursor (x :: xs)). assert (UN : u <> []) by (apply until_nonempty; discriminate). split.
    + destruct u; [congruence|discriminate].
    + split.
      * assert (E : forall l : list (nat * nat), map fst (map (fun '(o, n) => (o, n, alias_allowed enhanced line o)) l) = l).
        { induction l as [|[o n] l IH]; cbn [map fst]; [reflexivity|f_equal; exact IH]. }
        rewrite E. apply until_order; [unfold stop; intros XX; rewrite XX; reflexivity|]. apply in_order_line; [exact SL|exact IO].
      * apply Forall_forall. intros [[o n] al] I. apply in_map_iff in I as ([o' n'] & E & _). injection E as <- <- <-. left. apply alias_allowed_ok.
Qed.

Lemma raw_ok line cursor (stopc : bool) : cursor <= length line -> let stop := if stopc then cursor else length line in
  exists cs gs tail, raw_words lookup alias deprecated enhanced dots line cursor stopc = Some (cs, concat gs ++ tail) /\ cs <> [] /\
    in_order line stop true 0 (map fst cs) /\ Forall (flag_ok line) cs /\ Forall2 (good alias line) cs gs /\ tail_ok cursor stopc gs tail /\
    Forall fresh_word (concat gs ++ tail).
Proof.
  intros CL stop. assert (SL : stop <= length line) by (unfold stop; destruct stopc; lia).
  destruct (bounds_ok line cursor stopc SL) as (cs & E & NE & IO & FO). fold stop in IO. unfold raw_words. cbv zeta. fold stop. rewrite E.
  destruct (all_commands_ok alias deprecated line stop SL cs true 0 ltac:(auto) IO) as (gs & E2 & G). rewrite E2.
  pose proof (all_commands_fresh _ _ _ _ _ _ _ E2) as FR.
  assert (M : exists gs', (if stopc && dots then merge_dots line (rev (concat gs)) else rev (concat gs)) = rev (concat gs') /\ Forall2 (good alias line) cs gs' /\
                          is_nil (last gs' []) = is_nil (last gs []) /\ Forall fresh_word (concat gs')).
  { destruct (stopc && dots).
    - destruct (merge_groups alias line stop SL cs gs IO G cs [] gs []) as (gs' & E3 & G3 & N3);
        [rewrite app_nil_r; reflexivity|rewrite app_nil_r; reflexivity|exact (Forall2_len _ _ _ G)|reflexivity|].
      exists gs'. split; [exact E3|]. split; [exact G3|]. split; [exact N3|]. rewrite <- (rev_involutive (concat gs')), <- E3. apply Forall_rev, merge_fresh, Forall_rev, FR.
    - exists gs. auto. }
  destruct M as (gs' & -> & G3 & N3 & FR3). rewrite <- N3. destruct (add_end_ok cursor stopc gs') as (tail & -> & T).
  exists cs, gs', tail. split; [reflexivity|]. split; [exact NE|]. split; [exact IO|]. split; [exact FO|]. split; [exact G3|]. split; [exact T|].
  apply Forall_app. split; [exact FR3|]. destruct T as [(-> & _)|(-> & _)]; [constructor|]. constructor; [split; reflexivity|constructor].
Qed.

End Collect.
