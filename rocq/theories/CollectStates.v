(** Proofs about CollectModel: the line states. *)
From Verif Require Import Base DoskeyModel DoskeySpec DoskeyProofs CmdTokModel CmdTokSpec CmdTokProofs CmdTokRem CmdTokLoop CmdTokCommands CmdTokWords CmdTokProperties
  CollectModel CollectSpec CollectProofs CollectTokens CollectWords CollectAll CollectStrip CollectRaw CollectProperties.

(** ** Groups *)
Lemma groups_tail : forall g rest, g <> [] -> Forall (fun x => command_word x = false) (tl g) -> (rest = [] \/ exists w r, rest = w :: r /\ command_word w = true) ->
  groups (g ++ rest) = g :: groups rest.
Proof.
  induction g as [|w g IH]; intros rest N F R; [congruence|]. cbn [app groups tl] in *. destruct g as [|x g].
  - cbn [app]. destruct R as [->|(y & r & -> & Y)]; [reflexivity|]. cbn [groups]. 
    assert (G : exists h t, groups (y :: r) = (y :: h) :: t).
    { clear. revert y. induction r as [|z r IH]; intros y; [exists [], []; reflexivity|]. cbn [groups]. destruct (IH z) as (h & t & E). cbn [groups] in E. rewrite E.
      destruct (command_word z); eexists _, _; reflexivity. }
    destruct G as (h & t & G). cbn [groups] in G. rewrite G, Y. reflexivity.
  - rewrite IH; [|discriminate|exact (Forall_inv_tail F)|exact R]. pose proof (Forall_inv F) as X. cbv beta in X. rewrite X. reflexivity.
Qed.

(** ** Where a state begins *)
Definition start_of (w : word) : nat := if quoted w then o_ w - 1 else o_ w.
Definition left_of (line : bytes) (p : nat) : nat :=
  if Nat.eqb p 1 && ceq (at_ line 0) SPC then 0
  else if Nat.leb 2 p && ceq (at_ line (p - 1)) SPC && ceq (at_ line (p - 2)) SPC then p - 1 else p.
Lemma char_offset_start line w : char_offset_of line w = left_of line (start_of w).
Proof. reflexivity. Qed.
Lemma left_le line p : left_of line p <= p.
Proof. unfold left_of. destruct (_ && _); [lia|]. destruct (_ && _ && _); lia. Qed.
Lemma left_sep line p e j : e <= j < p -> sep_byte (BYTE line j) -> e < left_of line p.
Proof.
  intros J SB. unfold left_of. destruct (Nat.eqb p 1 && ceq (at_ line 0) SPC) eqn:A.
  - apply andb_true_iff in A as [A1 A2]. apply Nat.eqb_eq in A1. apply ceq_iff in A2. assert (j = 0) by lia. subst j. exfalso.
    unfold at_ in A2. rewrite A2 in SB. destruct SB; discriminate.
  - destruct (Nat.leb 2 p && ceq (at_ line (p - 1)) SPC && ceq (at_ line (p - 2)) SPC) eqn:B; [|lia].
    apply andb_true_iff in B as [B B3]. apply andb_true_iff in B as [B1 B2]. apply ceq_iff in B2, B3. apply Nat.leb_le in B1.
    assert (j <> p - 1 /\ j <> p - 2); [|lia]. split; intros ->; unfold at_ in *; [rewrite B2 in SB|rewrite B3 in SB]; destruct SB; discriminate.
Qed.

(** The commands behind one begin behind a separator *)
Lemma later_command line stop : forall cs lo, in_order line stop false lo cs -> forall o n, In (o, n) cs -> exists j, lo <= j < o /\ sep_byte (BYTE line j).
Proof.
  induction cs as [|[a b] cs IH]; intros lo H o n I; [destruct I|]. cbn [in_order] in H. destruct H as (H1 & H2 & H3 & H4 & H5).
  destruct I as [I|I]; [injection I as <- <-; exact (H4 eq_refl)|]. destruct (IH _ H5 o n I) as (j & J & SB). exists j. split; [lia|exact SB].
Qed.

Lemma seek_skip a n al cs o : a + n < o -> seek ((a, n, al) :: cs) o = seek cs o.
Proof. intros H. cbn [seek]. replace (Nat.ltb (a + n) o) with true by lia. reflexivity. Qed.
Lemma seek_stay a n al cs o : o <= a + n -> seek ((a, n, al) :: cs) o = Some ((a, n, al) :: cs).
Proof. intros H. cbn [seek]. replace (Nat.ltb (a + n) o) with false by lia. reflexivity. Qed.
Lemma seek_found : forall cs o, (exists a n al, In (a, n, al) cs /\ o <= a + n) -> exists a n al r l, seek cs o = Some ((a, n, al) :: r) /\ cs = l ++ (a, n, al) :: r /\ o <= a + n.
Proof.
  induction cs as [|[[a n] al] cs IH]; intros o (x & y & z & I & L); [destruct I|]. destruct (Nat.ltb (a + n) o) eqn:B.
  - rewrite seek_skip by lia. destruct I as [I|I]; [injection I as -> -> ->; lia|].
    destruct (IH o) as (a' & n' & al' & r & l & E & E2 & L2); [exists x, y, z; auto|]. exists a', n', al', r, ((a, n, al) :: l). rewrite E, E2. auto.
  - rewrite seek_stay by lia. exists a, n, al, cs, []. split; [reflexivity|]. split; [reflexivity|lia].
Qed.

(** ** All states *)
(** The group [g] of the command at [o], its words as they are shown *)
Definition placed (c : nat * nat * bool) (g : list word) : Prop :=
  let '(o, n, _) := c in marked g /\ Forall (fun w => o <= start_of w /\ end_of w <= o + n) g.
(** The state belongs to a command, and its words are in it but for an empty one at the cursor *)
Definition state_ok (cursor : nat) (cs : list (nat * nat * bool)) (st : line_state) : Prop :=
  (exists al, In (range_offset st, range_length st, al) cs) /\ char_offset st <= range_offset st + range_length st /\ l_words st <> [] /\
  Forall (fun w => (range_offset st <= o_ w /\ end_of w <= range_offset st + range_length st) \/ (o_ w = cursor /\ n_ w = 0)) (l_words st).
Fixpoint ascending (lo : nat) (sts : list line_state) : Prop :=
  match sts with [] => True | st :: r => lo <= range_offset st /\ ascending (S (range_offset st + range_length st)) r end.
Definition unmark (w : word) : word := mkw (o_ w) (n_ w) (command_word w) (is_alias w) (redir w) (quoted w) false.

Lemma mark_unmark line : forall ws, Forall (fun w => builtin w = false) ws -> map unmark (mark_builtin line ws) = ws.
Proof.
  assert (U : forall w, builtin w = false -> unmark w = w) by (intros [a b c d e f g] X; cbn in X; subst; reflexivity).
  assert (UL : forall l, Forall (fun w => builtin w = false) l -> map unmark l = l).
  { induction l as [|w l IH]; intros F; [reflexivity|]. cbn [map]. rewrite (U w (Forall_inv F)), (IH (Forall_inv_tail F)). reflexivity. }
  induction ws as [|w ws IH]; intros F; [reflexivity|]. cbn [mark_builtin]. destruct (redir w) eqn:RW.
  - cbn [map]. rewrite (U w (Forall_inv F)), (IH (Forall_inv_tail F)). reflexivity.
  - cbn [map]. rewrite (UL ws (Forall_inv_tail F)). f_equal. pose proof (Forall_inv F) as X. cbv beta in X. destruct (_ && _); [|exact (U w X)].
    destruct w as [a b c d e f g]; cbn in *; subst; reflexivity.
Qed.
Lemma mark_Forall (P : word -> Prop) line : (forall w b, P w -> P (mkw (o_ w) (n_ w) (command_word w) (is_alias w) (redir w) (quoted w) b)) ->
  forall ws, Forall P ws -> Forall P (mark_builtin line ws).
Proof.
  intros H. induction ws as [|w ws IH]; intros F; [constructor|]. cbn [mark_builtin]. destruct (redir w) eqn:RW.
  - constructor; [exact (Forall_inv F)|exact (IH (Forall_inv_tail F))].
  - constructor; [|exact (Forall_inv_tail F)]. destruct (_ && _); [rewrite <- RW; apply H|]; exact (Forall_inv F).
Qed.
Lemma mark_nonempty line ws : ws <> [] -> mark_builtin line ws <> [].
Proof. destruct ws as [|w ws]; [congruence|]. intros _. cbn [mark_builtin]. destruct (redir w); discriminate. Qed.

(** The end word, for the states: when it begins a command of its own then some command ends at or behind it *)
Definition end_ok (line : bytes) (stop cursor : nat) (cs : list (nat * nat * bool)) (gs : list (list word)) (tail : list word) : Prop :=
  tail = [] \/
  exists w, tail = [w] /\ o_ w = cursor /\ n_ w = 0 /\ quoted w = false /\ builtin w = false /\ command_word w = is_nil (last gs []) /\
    (concat gs = [] \/ cursor = stop) /\
    (command_word w = true -> exists a n al, In (a, n, al) cs /\ left_of line cursor <= a + n).

Lemma concat_head cs gs : Forall2 placed cs gs -> concat gs = [] \/ exists w r c, concat gs = w :: r /\ command_word w = true /\ In c cs /\ fst (fst c) <= start_of w.
Proof.
  induction 1 as [|[[o n] al] g cs gs P G IH]; [left; reflexivity|]. destruct P as [M F]. destruct M as [->|(w & r & -> & CW & FR)].
  - cbn [concat app]. destruct IH as [IH|(w & r & c & E & CW & I & L)]; [left; exact IH|right]. exists w, r, c. split; [exact E|]. split; [exact CW|]. split; [right; exact I|exact L].
  - right. exists w, (r ++ concat gs), (o, n, al). split; [reflexivity|]. split; [exact CW|]. split; [left; reflexivity|]. exact (proj1 (Forall_inv F)).
Qed.
Lemma concat_nil_last (gs : list (list word)) : concat gs = [] -> last gs [] = [].
Proof.
  destruct gs as [|g gs _] using rev_ind; [reflexivity|]. rewrite concat_app, last_last. cbn [concat]. rewrite app_nil_r. intros E. apply app_eq_nil in E as [_ E]. exact E.
Qed.

(** A command that ends before the first group begins is passed over *)
Lemma states_skip line c cs gs : (forall w r t, gs = (w :: r) :: t -> fst (fst c) + snd (fst c) < char_offset_of line w) -> (forall t, gs <> [] :: t) ->
  line_states line (c :: cs) gs = line_states line cs gs.
Proof.
  intros H N. destruct c as [[a n] al]. destruct gs as [|g gs]; [reflexivity|]. destruct g as [|w r]; [exfalso; exact (N gs eq_refl)|]. cbn [line_states].
  rewrite seek_skip by exact (H w r gs eq_refl). reflexivity.
Qed.

Lemma groups_head : forall ws w r, ws = w :: r -> exists h t, groups ws = (w :: h) :: t.
Proof.
  intros ws w r ->. revert w. induction r as [|z r IH]; intros y; [exists [], []; reflexivity|]. cbn [groups]. destruct (IH z) as (h & t & E). cbn [groups] in E. rewrite E.
  destruct (command_word z); eexists _, _; reflexivity.
Qed.

Lemma states_ok line stop cursor : forall cs gs tail first lo, in_order line stop first lo (map fst cs) -> Forall2 placed cs gs ->
  Forall (fun w => builtin w = false) (concat gs) -> end_ok line stop cursor cs gs tail ->
  exists sts, line_states line cs (groups (concat gs ++ tail)) = Some sts /\ map unmark (concat (map l_words sts)) = concat gs ++ tail /\
    Forall (state_ok cursor cs) sts /\ ascending lo sts.
Proof.
  assert (SO : forall c cs st, state_ok cursor cs st -> state_ok cursor (c :: cs) st).
  { intros c cs st ((al & I) & X). split; [exists al; right; exact I|exact X]. }
  assert (AM : forall lo lo' sts, lo' <= lo -> ascending lo sts -> ascending lo' sts) by (intros lo lo' [|st sts] L; cbn; [auto|intros [X Y]; split; [lia|exact Y]]).
  assert (TAIL : forall cs w, o_ w = cursor -> n_ w = 0 -> quoted w = false -> builtin w = false -> (exists a n al, In (a, n, al) cs /\ left_of line cursor <= a + n) ->
    forall first lo, in_order line stop first lo (map fst cs) ->
    exists sts, line_states line cs (groups [w]) = Some sts /\ map unmark (concat (map l_words sts)) = [w] /\ Forall (state_ok cursor cs) sts /\ ascending lo sts).
  { intros cs w OW NW QW BW FD first lo IO. cbn [groups line_states]. rewrite char_offset_start. unfold start_of. rewrite QW, OW.
    destruct (seek_found cs (left_of line cursor) FD) as (a & n & al & r & l & E & EC & L). rewrite E. eexists. split; [reflexivity|].
    cbn [map concat l_words]. rewrite app_nil_r. split; [apply mark_unmark; constructor; [exact BW|constructor]|]. split.
    - constructor; [|constructor]. split; [exists al; cbn [range_offset range_length]; rewrite EC; apply in_or_app; right; left; reflexivity|].
      cbn [range_offset range_length char_offset l_words]. split; [exact L|]. split; [apply mark_nonempty; discriminate|].
      apply mark_Forall; [intros w0 b X; exact X|]. constructor; [right; auto|constructor].
    - cbn [ascending range_offset]. split; [|exact I]. assert (IN : In (a, n) (map fst cs)) by (rewrite EC, map_app; apply in_or_app; right; left; reflexivity).
      clear - IO IN. revert first lo IO. induction (map fst cs) as [|[x y] xs IH]; intros first lo IO; [destruct IN|]. cbn [in_order] in IO. destruct IO as (H1 & H2 & H3 & H4 & H5).
      destruct IN as [IN|IN]; [injection IN as <- <-; exact H1|]. specialize (IH IN _ _ H5). lia. }
  induction cs as [|[[o n] al] cs IH]; intros gs tail first lo IO PL BI EO.
  - inversion PL; subst. cbn [concat app] in *. destruct EO as [->|(w & -> & OW & NW & QW & BW & CW & _ & FD)].
    + exists []. split; [reflexivity|]. split; [reflexivity|]. split; constructor.
    + exact (TAIL [] w OW NW QW BW (FD CW) first lo IO).
  - pose proof IO as IO0. inversion PL as [|x g y gs' Pg PL2]; subst. cbn [map fst in_order] in IO. destruct IO as (H1 & H2 & H3 & H4 & H5).
    cbn [concat] in BI. apply Forall_app in BI as [BG BI].
    (* what begins behind a later command is not in this one *)
    assert (LATER : forall c p, In c cs -> fst (fst c) <= p -> o + n < left_of line p).
    { intros [[o' n'] al'] p I L. cbn [fst] in L. destruct (later_command _ _ _ _ H5 o' n') as (j & J & SB); [apply (in_map fst) in I; exact I|].
      apply (left_sep line p (o + n) j); [lia|exact SB]. }
    destruct (concat_head cs gs' PL2) as [CN|(w1 & r1 & c1 & CE & CW1 & IC & LC)].
    + (* this is the last command with words *)
      cbn [concat]. rewrite CN, app_nil_r. destruct Pg as [M F]. destruct M as [->|(w & r & -> & CW & FR)].
      * cbn [app]. destruct EO as [->|(w & -> & OW & NW & QW & BW & CW & _ & FD)].
        -- exists []. split; [reflexivity|]. split; [reflexivity|]. split; constructor.
        -- apply (TAIL _ w OW NW QW BW) with (first := first); [|exact IO0]. apply FD. rewrite CW. rewrite concat_nil_last; [reflexivity|]. cbn [concat app]. exact CN.
      * assert (SEEK : seek ((o, n, al) :: cs) (char_offset_of line w) = Some ((o, n, al) :: cs)).
        { apply seek_stay. rewrite char_offset_start. pose proof (left_le line (start_of w)). destruct (Forall_inv F) as [F1 F2]. unfold start_of, end_of in *. destruct (quoted w); lia. }
        assert (GW : Forall (fun x => (o <= o_ x /\ end_of x <= o + n) \/ (o_ x = cursor /\ n_ x = 0)) (w :: r)).
        { eapply Forall_impl; [|exact F]. intros x [X1 X2]. left. unfold start_of in X1. destruct (quoted x); lia. }
        assert (CH : char_offset_of line w <= o + n).
        { rewrite char_offset_start. pose proof (left_le line (start_of w)). destruct (Forall_inv F) as [F1 F2]. unfold start_of, end_of in *. destruct (quoted w); lia. }
        assert (STATE : forall g', g' <> [] -> Forall (fun x => (o <= o_ x /\ end_of x <= o + n) \/ (o_ x = cursor /\ n_ x = 0)) g' ->
          state_ok cursor ((o, n, al) :: cs) (mkl (char_offset_of line w) o n (mark_builtin line g'))).
        { intros g' NE FG. split; [exists al; left; reflexivity|]. cbn [range_offset range_length char_offset l_words]. split; [exact CH|].
          split; [apply mark_nonempty; exact NE|]. apply mark_Forall; [intros w0 b X; exact X|exact FG]. }
        destruct EO as [->|(e & -> & OW & NW & QW & BW & CE & CS & FD)].
        -- rewrite app_nil_r. assert (GE : groups (w :: r) = [w :: r]).
           { rewrite <- (app_nil_r (w :: r)). rewrite groups_tail; [|discriminate|exact FR|left; reflexivity]. rewrite app_nil_r. reflexivity. }
           rewrite GE. cbn [line_states]. rewrite SEEK.
           eexists. split; [reflexivity|]. cbn [map concat l_words]. rewrite app_nil_r. split; [apply mark_unmark; exact BG|].
           split; [constructor; [apply STATE; [discriminate|exact GW]|constructor]|]. cbn [ascending range_offset]. split; [exact H1|exact I].
        -- destruct gs' as [|g2 gs2].
           ++ (* the end word is in this command's group *)
              cbn [last is_nil] in CE. assert (CE' : command_word e = false) by (rewrite CE; reflexivity).
              assert (GE : groups ((w :: r) ++ [e]) = [(w :: r) ++ [e]]).
              { rewrite <- (app_nil_r ((w :: r) ++ [e])). rewrite groups_tail; [|discriminate| |left; reflexivity]; [rewrite app_nil_r; reflexivity|].
                cbn [app tl]. apply Forall_app. split; [exact FR|constructor; [exact CE'|constructor]]. }
              rewrite GE. cbn [app line_states]. rewrite SEEK. eexists. split; [reflexivity|]. cbn [map concat l_words]. rewrite app_nil_r.
                 split; [apply mark_unmark; change (w :: r ++ [e]) with ((w :: r) ++ [e]); apply Forall_app; split; [exact BG|constructor; [exact BW|constructor]]|].
                 split; [constructor; [|constructor]|cbn [ascending range_offset]; split; [exact H1|exact I]].
                 apply STATE; [discriminate|]. change (w :: r ++ [e]) with ((w :: r) ++ [e]). apply Forall_app. split; [exact GW|]. constructor; [right; auto|constructor].
           ++ (* a group of its own *)
              assert (LN : last (g2 :: gs2) [] = []) by (apply concat_nil_last; exact CN).
              assert (CE' : command_word e = true).
              { rewrite CE. change (last ((w :: r) :: g2 :: gs2) []) with (last (g2 :: gs2) []). rewrite LN. reflexivity. }
              destruct CS as [CS|CS]; [discriminate|].
              rewrite groups_tail; [|discriminate|exact FR|right; exists e, []; auto]. cbn [line_states]. rewrite SEEK.
              destruct cs as [|c cs]; [inversion PL2|].
              assert (OC : fst (fst c) <= cursor).
              { destruct c as [[o' n'] al']. cbn [map fst in_order] in H5. cbn [fst]. destruct H5 as (_ & X & _). lia. }
              assert (LF : o + n < left_of line cursor) by (apply (LATER c cursor); [left; reflexivity|exact OC]).
              assert (SK : line_states line ((o, n, al) :: c :: cs) (groups [e]) = line_states line (c :: cs) (groups [e])).
              { apply states_skip; [|intros t X; cbn in X; discriminate]. intros w0 r0 t X. cbn [groups] in X. injection X as <- _ _. cbn [fst snd]. rewrite char_offset_start.
                unfold start_of. rewrite QW, OW. exact LF. }
              rewrite SK. destruct (TAIL (c :: cs) e OW NW QW BW) with (first := false) (lo := o + n) as (sts & E & U & ST & AS); [|exact H5|].
              { destruct (FD CE') as (a & m & b & IN & LE). destruct IN as [IN|IN]; [injection IN as <- <- <-; lia|]. exists a, m, b. auto. }
              rewrite E. eexists. split; [reflexivity|]. cbn [map concat l_words]. rewrite map_app, U, (mark_unmark line (w :: r) BG). split; [reflexivity|]. split.
              { constructor; [apply STATE; [discriminate|exact GW]|]. eapply Forall_impl; [|exact ST]. intros st X. apply SO. exact X. }
              cbn [ascending range_offset range_length]. split; [exact H1|]. destruct sts as [|st sts]; [exact I|]. cbn [ascending] in AS |- *. destruct AS as [_ AS]. split; [|exact AS].
              destruct (Forall_inv ST) as ((al' & IN) & _). assert (IN' : In (range_offset st, range_length st) (map fst (c :: cs))) by (apply (in_map fst) in IN; exact IN).
              destruct (later_command _ _ _ _ H5 _ _ IN') as (j & J & _). lia.
    + (* words behind this command *)
      assert (EO' : end_ok line stop cursor cs gs' tail).
      { destruct EO as [->|(e & -> & OW & NW & QW & BW & CE' & CS & FD)]; [left; reflexivity|right]. exists e. split; [reflexivity|]. split; [exact OW|]. split; [exact NW|].
        split; [exact QW|]. split; [exact BW|]. destruct gs' as [|g2 gs2]; [discriminate|]. split; [exact CE'|]. split.
        - destruct CS as [CS|CS]; [|right; exact CS]. exfalso. cbn [concat] in CS, CE. rewrite CE in CS. apply app_eq_nil in CS as [_ CS]. discriminate.
        - intros X. destruct (FD X) as (a & m & b & IN & LE). exists a, m, b. split; [|exact LE]. destruct IN as [IN|IN]; [|exact IN]. exfalso. injection IN as -> -> ->.
          destruct CS as [CS|CS]; [cbn [concat] in CS, CE; rewrite CE in CS; apply app_eq_nil in CS as [_ CS]; discriminate|].
          assert (IC2 : In (fst c1) (map fst cs)) by (apply in_map; exact IC). destruct c1 as [[oc nc] alc]. cbn [fst] in IC2.
          pose proof (in_order_stop _ _ _ _ _ H5 _ _ IC2). assert (LF : a + m < left_of line cursor) by (apply (LATER (oc, nc, alc) cursor IC); cbn [fst]; lia). lia. }
      destruct (IH gs' tail false (o + n) H5 PL2 BI EO') as (sts & E & U & ST & AS).
      destruct (groups_head (concat gs' ++ tail) w1 (r1 ++ tail)) as (h & t & GH); [rewrite CE; reflexivity|].
      assert (SK : line_states line ((o, n, al) :: cs) (groups (concat gs' ++ tail)) = Some sts).
      { rewrite <- E. apply states_skip; rewrite GH; [|intros t0 X; discriminate]. intros w0 r0 t0 X. injection X as <- _ _. cbn [fst snd]. rewrite char_offset_start.
        apply (LATER c1); assumption. }
      assert (ASC : ascending (S (o + n)) sts).
      { destruct sts as [|st sts]; [exact I|]. cbn [ascending] in AS |- *. destruct AS as [_ AS]. split; [|exact AS].
        destruct (Forall_inv ST) as ((al' & IN) & _). assert (IN' : In (range_offset st, range_length st) (map fst cs)) by (apply (in_map fst) in IN; exact IN).
        destruct (later_command _ _ _ _ H5 _ _ IN') as (j & J & _). lia. }
      assert (STC : Forall (state_ok cursor ((o, n, al) :: cs)) sts) by (eapply Forall_impl; [|exact ST]; intros st X; apply SO; exact X).
      destruct Pg as [M F]. destruct M as [->|(w & r & -> & CW & FR)].
      * cbn [concat app]. exists sts. split; [exact SK|]. split; [exact U|]. split; [exact STC|]. apply (AM (S (o + n))); [lia|exact ASC].
      * cbn [concat]. rewrite <- app_assoc. rewrite groups_tail; [|discriminate|exact FR|right; exists w1, (r1 ++ tail); rewrite CE; auto]. cbn [line_states].
        assert (CH : char_offset_of line w <= o + n).
        { rewrite char_offset_start. pose proof (left_le line (start_of w)). destruct (Forall_inv F) as [F1 F2]. unfold start_of, end_of in *. destruct (quoted w); lia. }
        rewrite seek_stay by exact CH. rewrite SK. eexists. split; [reflexivity|]. cbn [map concat l_words]. rewrite map_app, U, (mark_unmark line (w :: r) BG). split; [reflexivity|]. split.
        -- constructor; [|exact STC]. split; [exists al; left; reflexivity|]. cbn [range_offset range_length char_offset l_words]. split; [exact CH|].
           split; [apply mark_nonempty; discriminate|]. apply mark_Forall; [intros w0 b X; exact X|]. eapply Forall_impl; [|exact F]. intros x [X1 X2]. left. unfold start_of in X1. destruct (quoted x); lia.
        -- cbn [ascending range_offset range_length]. split; [exact H1|exact ASC].
Qed.
