(** Proofs about CollectModel: the words of the line. *)
From Verif Require Import Base DoskeyModel DoskeySpec DoskeyProofs CmdTokModel CmdTokSpec CmdTokProofs CmdTokRem CmdTokLoop CmdTokCommands CmdTokWords CmdTokProperties
  CollectModel CollectSpec CollectProofs CollectTokens CollectWords.

(** ** Where macros may be *)
Lemma allowed_from_ok enhanced : forall before spaces, allowed_from enhanced before spaces = true <->
  exists k, (before = repeat SPC k /\ spaces + k = 0) \/
            (enhanced = true /\ spaces + k <= 1 /\ exists c a, before = repeat SPC k ++ c :: a /\ sep_byte c).
Proof.
  induction before as [|c r IH]; intros spaces; cbn [allowed_from].
  - rewrite Nat.leb_le. split.
    + intros H. exists 0. left. cbn. split; [reflexivity|lia].
    + intros (k & [[H1 H2]|(_ & _ & c & a & H & _)]); [lia|]. destruct k; discriminate.
  - destruct (ceq c "&" || ceq c "|") eqn:SP.
    + rewrite orb_true_iff, !ceq_iff in SP. rewrite andb_true_iff, Nat.leb_le. split.
      * intros [H1 H2]. exists 0. right. split; [exact H1|]. split; [lia|]. exists c, r. split; [reflexivity|exact SP].
      * intros (k & [[H1 H2]|(H1 & H2 & c' & a & H & _)]); [|split; [exact H1|lia]].
        destruct k; [discriminate|]. cbn in H1. injection H1 as -> _. destruct SP; discriminate.
    + destruct (ceq c SPC) eqn:P.
      * apply ceq_iff in P. subst c. rewrite IH. split.
        -- intros (k & [[H1 H2]|(H1 & H2 & c' & a & H & SB)]); [lia|]. exists (S k). right. split; [exact H1|]. split; [lia|].
           exists c', a. split; [cbn; rewrite H; reflexivity|exact SB].
        -- intros (k & [[H1 H2]|(H1 & H2 & c' & a & H & SB)]).
           ++ destruct k; [discriminate|lia].
           ++ destruct k as [|k]; cbn in H; [injection H as <- _; destruct SB; discriminate|]. injection H as H. exists k. right. split; [exact H1|].
              split; [lia|]. exists c', a. auto.
      * split; [discriminate|]. intros (k & [[H1 H2]|(H1 & H2 & c' & a & H & SB)]).
        -- destruct k; [discriminate|lia].
        -- destruct k as [|k]; cbn in H; injection H as -> _.
           ++ exfalso. destruct SB as [->| ->]; discriminate.
           ++ discriminate.
Qed.
Lemma alias_allowed_ok enhanced line o : alias_allowed enhanced line o = true <-> alias_place enhanced line o.
Proof.
  unfold alias_allowed, alias_place. change (at_ line o) with (BYTE line o). destruct (ceq (BYTE line o) SPC) eqn:B.
  - apply ceq_iff in B. split; [discriminate|]. intros [H _]. contradiction.
  - assert (N : BYTE line o <> SPC) by (intros X; rewrite X in B; discriminate). rewrite allowed_from_ok.
    assert (RV : forall l a b : bytes, rev l = a ++ b -> l = rev b ++ rev a).
    { intros l a b E. rewrite <- (rev_involutive l), E, rev_app_distr. reflexivity. }
    split.
    + intros (k & [[H1 H2]|(H1 & H2 & c & a & H & SB)]).
      * split; [exact N|]. left. assert (k = 0) as -> by lia. cbn in H1. apply (f_equal (@rev _)) in H1. rewrite rev_involutive in H1. exact H1.
      * split; [exact N|]. right. split; [exact H1|]. apply RV in H. cbn [rev] in H. rewrite <- app_assoc in H. exists (rev a), c, (rev (repeat SPC k)).
        split; [exact H|]. split; [exact SB|]. destruct k as [|[|k]]; [left; reflexivity|right; reflexivity|lia].
    + intros [_ [H|(H1 & a & c & s & H & SB & S)]].
      * exists 0. left. rewrite H. split; reflexivity.
      * rewrite H, rev_app_distr. cbn [rev]. rewrite <- app_assoc. destruct S as [->| ->].
        -- exists 0. right. split; [exact H1|]. split; [lia|]. exists c, (rev a). split; [reflexivity|exact SB].
        -- exists 1. right. split; [exact H1|]. split; [lia|]. exists c, (rev a). split; [reflexivity|exact SB].
Qed.

(** ** All commands *)

Definition good (alias : bytes -> bool) (line : bytes) (c : nat * nat * bool) (g : list word) : Prop :=
  let '(o, n, al) := c in
  within line o n g /\ covered between line o (o + n) g /\ macro_word alias (al = true) o (firstn n (skipn o line)) g.

Lemma in_order_plus line stop first lo o n r : (first = true -> lo = 0) -> in_order line stop first lo ((o, n) :: r) -> o = 0 \/ BYTE line (o - 1) <> "+"%char.
Proof.
  intros F (H1 & H2 & H3 & H4 & H5). destruct (Nat.eqb lo o) eqn:B.
  - destruct first; [specialize (F eq_refl); left; lia|]. destruct (H4 eq_refl) as (j & J & _). lia.
  - right. specialize (H3 (o - 1) ltac:(lia)). intros X. rewrite X in H3. cbn in H3. repeat (destruct H3 as [H3|H3]; [discriminate|]). exact H3.
Qed.

Lemma last_cons {A} (g : list A) gs : last (g :: gs) [] = match gs with [] => g | _ => last gs [] end.
Proof. destruct gs; reflexivity. Qed.

Lemma all_commands_ok alias deprecated line stop : stop <= length line -> forall cs first lo, (first = true -> lo = 0) -> in_order line stop first lo (map fst cs) ->
  exists gs, all_commands alias deprecated line stop cs = Some (concat gs, is_nil (last gs [])) /\ Forall2 (good alias line) cs gs.
Proof.
  intros SL. induction cs as [|[[o n] al] cs IH]; intros first lo F H.
  - exists []. split; [reflexivity|constructor].
  - cbn [map fst] in H. pose proof (in_order_plus _ _ _ _ _ _ _ F H) as NP. cbn [in_order] in H. destruct H as (H1 & H2 & H3 & H4 & H5).
    destruct (command_words_ok alias deprecated line stop o n al H2 SL NP) as (g & E & M & LO & FO & CV & MW).
    destruct (IH false (o + n)) as (gs & E2 & G2); [discriminate|exact H5|]. exists (g :: gs). cbn [all_commands]. rewrite E, E2. split.
    + cbn [concat]. rewrite last_cons. f_equal. f_equal. destruct cs as [|c cs]; inversion G2; subst; [destruct g; reflexivity|reflexivity].
    + constructor; [|exact G2]. cbn [good]. unfold within. auto.
Qed.

(** ** All words are in order *)
Lemma laid_app line lo mid hi a b : mid <= hi -> laid_out line lo mid a -> laid_out line mid hi b -> laid_out line lo hi (a ++ b).
Proof.
  intros MH. revert lo. induction a as [|w r IH]; intros lo A B; cbn [app laid_out] in *.
  - exact (laid_mono _ _ _ _ _ A B).
  - destruct A as (A1 & A2 & A3 & A4). split; [exact A1|]. split; [exact A2|]. split; [lia|]. apply IH; assumption.
Qed.
Lemma laid_hi line lo hi hi' ws : hi <= hi' -> laid_out line lo hi ws -> laid_out line lo hi' ws.
Proof. revert lo. induction ws as [|w r IH]; intros lo L H; cbn [laid_out] in *; [lia|]. destruct H as (H1 & H2 & H3 & H4). split; [exact H1|]. split; [exact H2|]. split; [lia|apply IH; assumption]. Qed.

Lemma good_laid alias line stop : forall cs gs first lo, in_order line stop first lo (map fst cs) -> Forall2 (good alias line) cs gs ->
  laid_out line lo stop (concat gs) /\ covered gap line lo stop (concat gs).
Proof.
  assert (GC : forall c, In c (lit " @()&|") -> gap c).
  { intros c C. unfold gap, between. cbn in C. repeat (destruct C as [<-|C]; [cbn; tauto|]). destruct C. }
  induction cs as [|[[o n] al] cs IH]; intros gs first lo H G; inversion G as [|x g y gs' Gg G2]; subst.
  - cbn [map in_order concat] in *. destruct H as (H1 & H2 & _). split; [exact H1|]. intros i I. right. apply GC, H2, I.
  - destruct Gg as [(M & LO & FO) (CV & MW)]. cbn [map fst in_order concat] in *. destruct H as (H1 & H2 & H3 & H4 & H5). destruct (IH gs' false (o + n) H5 G2) as [L2 C2]. split.
    + apply laid_app with (mid := o + n); [lia| |exact L2]. apply laid_mono with (lo := o); [exact H1|exact LO].
    + intros i I. destruct (Nat.ltb i o) eqn:B1; [right; apply GC, H3; lia|]. destruct (Nat.ltb i (o + n)) eqn:B2.
      * destruct (CV i ltac:(lia)) as [(w & W & WI)|X]; [left|right; left; exact X]. exists w. split; [apply in_or_app; auto|exact WI].
      * destruct (C2 i ltac:(lia)) as [(w & W & WI)|X]; [left|right; exact X]. exists w. split; [apply in_or_app; auto|exact WI].
Qed.
Lemma laid_In line hi : forall ws lo w, laid_out line lo hi ws -> In w ws -> end_of w <= hi.
Proof.
  induction ws as [|x ws IH]; intros lo w H I; [destruct I|]. cbn [laid_out] in H. destruct H as (_ & _ & H3 & H4). destruct I as [->|I]; [exact H3|].
  exact (IH _ _ H4 I).
Qed.

(** ** ./ and ../ *)
Lemma merge_rev line a c w : exists r, merge_dots line (rev (a ++ [c; w])) = rev r /\
  (r = a ++ [c; w] \/
   (command_word c = true /\ 0 < n_ w /\ o_ w = end_of c /\ BYTE line (o_ w) = "/"%char /\
    r = a ++ [mkw (o_ c) (n_ c + n_ w) (command_word c) (is_alias c) (redir c) (quoted c) (builtin c)])).
Proof.
  rewrite rev_app_distr. cbn [rev app merge_dots].
  match goal with |- context [if ?b then _ else _] => destruct b eqn:B end.
  - eexists (a ++ [_]). rewrite rev_app_distr. cbn [rev app]. split; [reflexivity|]. right.
    repeat (apply andb_true_iff in B as [B ?]). apply Nat.eqb_eq in H2. apply ceq_iff in H1. apply Nat.ltb_lt in H3.
    split; [exact B|]. split; [exact H3|]. split; [exact H2|]. split; [exact H1|reflexivity].
  - exists (a ++ [c; w]). rewrite rev_app_distr. cbn [rev app]. split; [reflexivity|left; reflexivity].
Qed.
Lemma merge_short line w : merge_dots line [w] = [w].
Proof. reflexivity. Qed.

Lemma good_merge alias line o n al c w : good alias line (o, n, al) [c; w] -> o + n <= length line -> 0 < n_ w -> o_ w = end_of c -> BYTE line (o_ w) = "/"%char ->
  good alias line (o, n, al) [mkw (o_ c) (n_ c + n_ w) (command_word c) (is_alias c) (redir c) (quoted c) (builtin c)].
Proof.
  intros [(M & LO & FO) (CV & MW)] L NW E SL. set (c' := mkw _ _ _ _ _ _ _).
  cbn [laid_out] in LO. destruct LO as (L1 & L2 & L3 & L4 & L5 & L6 & L7).
  assert (EC : end_of c' = end_of w) by (unfold end_of, c'; cbn [o_ n_]; unfold end_of in E; lia).
  assert (OC : o_ c' = o_ c) by reflexivity.
  split; [split; [|split]|split].
  - right. exists c', []. split; [reflexivity|]. split; [|constructor]. destruct M as [M|(x & r & M & CW & _)]; [discriminate|]. injection M as <- _. exact CW.
  - cbn [laid_out]. rewrite EC, OC. split; [exact L1|]. split; [lia|]. split; [exact L6|exact L6].
  - constructor; [|constructor]. rewrite OC. exact (Forall_inv FO).
  - intros i I. destruct (CV i I) as [(x & X & XI)|X]; [left|right; exact X]. exists c'. split; [left; reflexivity|]. rewrite EC, OC.
    destruct X as [<-|[<-|[]]]; unfold end_of in *; lia.
  - destruct MW as [(name & r & A & FW & NE & AN & EW & F)|(A & F)].
    + exfalso. injection EW as -> <-. unfold end_of in E. cbn [o_ n_] in E. destruct FW as (rest & ET & _ & RE). destruct RE as [->|(b & r' & -> & BL)].
      * rewrite app_nil_r in ET. assert (LT : length (firstn n (skipn o line)) = n) by (rewrite firstn_length, skipn_length; lia). rewrite ET in LT.
        unfold end_of in L6. lia.
      * assert (X : BYTE line (o_ w) = b).
        { rewrite E, <- nth_skipn. assert (LT : length name < n).
          { apply (f_equal (@length _)) in ET. rewrite app_length, firstn_length in ET. cbn [length] in ET. lia. }
          rewrite <- (nth_firstn _ n) by exact LT. rewrite ET, <- (Nat.add_0_r (length name)), nth_app_at. reflexivity. }
        rewrite SL in X. subst b. destruct BL; discriminate.
    + right. split; [exact A|]. constructor; [exact (Forall_inv F)|constructor].
Qed.

Lemma Forall2_len {A B} (R : A -> B -> Prop) l m : Forall2 R l m -> length l = length m.
Proof. induction 1; cbn [length]; congruence. Qed.
Lemma snoc2 {A} (l : list A) : l = [] \/ (exists x, l = [x]) \/ exists a c w, l = a ++ [c; w].
Proof.
  destruct l as [|w l _] using rev_ind; [auto|]. destruct l as [|c l _] using rev_ind; [right; left; exists w; reflexivity|].
  right. right. exists l, c, w. rewrite <- app_assoc. reflexivity.
Qed.

Lemma in_order_snoc line stop : forall cs first lo o n, in_order line stop first lo (cs ++ [(o, n)]) ->
  forall a b, In (a, b) cs -> a + b < o.
Proof.
  induction cs as [|[a0 b0] cs IH]; intros first lo o n H a b I; [destruct I|]. cbn [app in_order] in H. destruct H as (H1 & H2 & H3 & H4 & H5).
  destruct I as [I|I]; [|exact (IH _ _ _ _ H5 a b I)]. injection I as <- <-.
  assert (NX : forall r lo, in_order line stop false lo (r ++ [(o, n)]) -> lo < o).
  { clear. induction r as [|[x y] r IH]; intros lo H; cbn [app in_order] in H.
    - destruct H as (H1 & H2 & H3 & H4 & _). destruct (H4 eq_refl) as (j & J & _). lia.
    - destruct H as (H1 & H2 & H3 & H4 & H5). apply IH in H5. lia. }
  exact (NX _ _ H5).
Qed.
Lemma in_order_stop line stop : forall cs first lo, in_order line stop first lo cs -> forall a b, In (a, b) cs -> a + b <= stop.
Proof.
  induction cs as [|[a0 b0] cs IH]; intros first lo H a b I; [destruct I|]. cbn [in_order] in H. destruct H as (H1 & H2 & H3 & H4 & H5).
  destruct I as [I|I]; [injection I as <- <-; exact H2|exact (IH _ _ H5 a b I)].
Qed.
Lemma in_order_init line stop : forall cs first lo x, in_order line stop first lo (cs ++ [x]) ->
  forall a b, In (a, b) cs -> a + b <= stop.
Proof. intros cs first lo x H a b I. apply (in_order_stop _ _ _ _ _ H). apply in_or_app. auto. Qed.

(** What an earlier command's words end before *)
Lemma good_ends alias line cs gs : Forall2 (good alias line) cs gs -> forall w, In w (concat gs) -> exists o n al, In (o, n, al) cs /\ end_of w <= o + n /\ o <= o_ w.
Proof.
  induction 1 as [|[[o n] al] g cs gs Gg G IH]; intros w I; [destruct I|]. destruct Gg as [(M & LO & FO) _]. cbn [concat] in I. apply in_app_or in I as [I|I].
  - exists o, n, al. split; [left; reflexivity|]. split; [exact (laid_In _ _ _ _ _ LO I)|]. rewrite Forall_forall in FO. exact (FO w I).
  - destruct (IH w I) as (a & b & c & X & Y). exists a, b, c. split; [right; exact X|exact Y].
Qed.

Lemma merge_groups alias line stop : stop <= length line -> forall cs gs, in_order line stop true 0 (map fst cs) -> Forall2 (good alias line) cs gs ->
  forall cs1 cs2 gs1 gs2, cs = cs1 ++ cs2 -> gs = gs1 ++ gs2 -> length cs1 = length gs1 -> concat gs2 = [] ->
  exists gs', merge_dots line (rev (concat gs1)) = rev (concat gs') /\ Forall2 (good alias line) cs1 gs' /\ is_nil (last gs' []) = is_nil (last gs1 []).
Proof.
  intros SL cs gs IO G cs1. induction cs1 as [|[[o n] al] cs1 IH] using rev_ind; intros cs2 gs1 gs2 EC EG LEN CN.
  - destruct gs1; [|discriminate]. exists []. split; [reflexivity|]. split; [constructor|reflexivity].
  - destruct gs1 as [|g gs1 _] using rev_ind; [rewrite app_length in LEN; cbn in LEN; lia|].
    rewrite !app_length in LEN. cbn [length] in LEN. assert (LEN' : length cs1 = length gs1) by lia.
    assert (G1 : Forall2 (good alias line) (cs1 ++ [(o, n, al)]) (gs1 ++ [g])).
    { rewrite EC, EG in G. apply Forall2_app_inv_l in G as (a & b & Ga & Gb & E). pose proof (Forall2_len _ _ _ Ga) as LA.
      assert (X : a = gs1 ++ [g]).
      { assert (LX : length a = length (gs1 ++ [g])) by (rewrite <- LA, !app_length; cbn [length]; lia).
        apply (f_equal (firstn (length a))) in E. rewrite LX in E at 1. rewrite !firstn_app_exact in E by reflexivity. congruence. }
      rewrite <- X. exact Ga. }
    apply Forall2_app_inv_l in G1 as (a & b & Ga & Gb & E). inversion Gb as [|x y l l' Gg Gn]; subst. inversion Gn; subst.
    apply app_inj_tail in E as [<- <-].
    destruct (snoc2 g) as [->|[(w & ->)|(a & c & w & ->)]].
    + rewrite concat_app. cbn [concat app]. rewrite app_nil_r.
      destruct (IH ([(o, n, al)] ++ cs2) gs1 ([[]] ++ gs2)) as (gs' & E & G' & _); [rewrite <- app_assoc; reflexivity|rewrite <- app_assoc; reflexivity|exact LEN'| |].
      { cbn [app concat]. exact CN. }
      exists (gs' ++ [[]]). rewrite concat_app. cbn [concat]. rewrite !app_nil_r. split; [exact E|]. split; [apply Forall2_app; [exact G'|constructor; [exact Gg|constructor]]|].
      rewrite !last_last. reflexivity.
    + exists (gs1 ++ [[w]]). split; [|split; [apply Forall2_app; [exact Ga|constructor; [exact Gg|constructor]]|reflexivity]].
      rewrite concat_app. cbn [concat app].
      destruct (concat gs1) as [|c l _] eqn:CG using rev_ind; [reflexivity|].
      rewrite <- app_assoc. cbn [app].
      destruct (merge_rev line l c w) as (r & -> & [->|(_ & _ & OW & _)]); [reflexivity|]. exfalso.
      destruct (good_ends _ _ _ _ Ga c) as (o1 & n1 & al1 & I1 & I2 & _); [rewrite CG; apply in_or_app; right; left; reflexivity|].
      assert (IN : In (o1, n1) (map fst cs1)) by (apply (in_map fst) in I1; exact I1).
      rewrite !map_app in IO. cbn [map fst] in IO.
      assert (IO' : exists r, in_order line stop true 0 (map fst cs1 ++ (o, n) :: r)) by (rewrite <- app_assoc in IO; eexists; exact IO).
      destruct IO' as (rr & IO').
      assert (BEF : forall xs first lo, in_order line stop first lo (xs ++ (o, n) :: rr) -> In (o1, n1) xs -> o1 + n1 < o).
      { clear. assert (NX : forall r lo o n rr, in_order line stop false lo (r ++ (o, n) :: rr) -> lo < o).
        { clear. induction r as [|[x y] r IH]; intros lo o n rr H; cbn [app in_order] in H.
          - destruct H as (H1 & H2 & H3 & H4 & _). destruct (H4 eq_refl) as (j & J & _). lia.
          - destruct H as (H1 & H2 & H3 & H4 & H5). apply IH in H5. lia. }
        induction xs as [|[x y] xs IH]; intros first lo H I; [destruct I|]. cbn [app in_order] in H. destruct H as (H1 & H2 & H3 & H4 & H5).
        destruct I as [I|I]; [injection I as -> ->; exact (NX _ _ _ _ _ H5)|exact (IH _ _ H5 I)]. }
      pose proof (BEF _ _ _ IO' IN). destruct Gg as [(_ & _ & FO) _]. pose proof (Forall_inv FO) as X. cbv beta in X. lia.
    + assert (LL : o + n <= length line).
      { assert (o + n <= stop); [|lia]. apply (in_order_stop line stop _ _ _ IO). apply (in_map fst _ (o, n, al)). apply in_or_app. left. apply in_or_app. right. left. reflexivity. }
      rewrite concat_app. cbn [concat]. rewrite app_nil_r, app_assoc.
      destruct (merge_rev line (concat gs1 ++ a) c w) as (r & -> & [->|(CW & NW & OW & SLH & ->)]).
      * exists (gs1 ++ [a ++ [c; w]]). rewrite concat_app. cbn [concat]. rewrite app_nil_r, app_assoc. split; [reflexivity|].
        split; [apply Forall2_app; [exact Ga|constructor; [exact Gg|constructor]]|reflexivity].
      * assert (a = []) as ->.
        { destruct Gg as [(M & _) _]. destruct M as [M|(x & r & M & _ & F)]; [destruct a; discriminate|]. destruct a as [|y a]; [reflexivity|].
          cbn [app] in M. injection M as _ M. rewrite <- M in F. apply Forall_app in F as [_ F]. pose proof (Forall_inv F) as X. cbv beta in X. congruence. }
        cbn [app] in Gg. pose proof (good_merge _ _ _ _ _ _ _ Gg LL NW OW SLH) as GM. eexists (gs1 ++ [[_]]). rewrite concat_app. cbn [concat app]. rewrite app_nil_r.
        split; [reflexivity|]. split; [apply Forall2_app; [exact Ga|constructor; [exact GM|constructor]]|]. rewrite !last_last. reflexivity.
Qed.
