(** EscModel on any bytes: nothing is invented, reordered or duplicated, and iteration ends. *)
From Verif Require Import Base UtfModel UtfSpec UtfProofs EscModel EscSpec EscProofs.

(** The text [t] taken apart: pieces reported, in order, and pieces dropped, each beginning with a control
    introducer; what is left at the end is empty, begins with a NUL, or is a control sequence still open. *)
Definition introducer (c : N) : Prop := (c = 27 \/ 128 <= c <= 159)%N.
Inductive splits : list N -> list (list N) -> Prop :=
| sp_end t : (t = [] \/ fst (d8 t) = 0%N \/ introducer (fst (d8 t))) -> splits t []
| sp_emit x t l : x <> [] -> splits t l -> splits (x ++ t) (x :: l)
| sp_drop p t l : p <> [] -> introducer (fst (d8 (p ++ t))) -> splits t l -> splits (p ++ t) l.

Lemma adv_piece t : fst (d8 t) <> 0%N -> exists u, t = u ++ adv t /\ u <> [].
Proof.
  intro H. destruct d8_decoder as [H0 Hs]. destruct t as [|b t]; [rewrite H0 in H; cbn in H; congruence|].
  unfold adv. destruct (d8 (b :: t)) as [v r] eqn:E. apply (Hs (b :: t) v r); [discriminate|exact E].
Qed.
Lemma adv_len t : fst (d8 t) <> 0%N -> length (adv t) < length t.
Proof. intro H. destruct (adv_piece t H) as (u & E & Hu). rewrite E at 2. rewrite app_length. destruct u; [contradiction|cbn; lia]. Qed.

Lemma next_c1_shape s b s1 : next_c1 s = (b, s1) -> e_buf s1 = e_buf s /\ e_clr s1 = e_clr s /\
  ((b = true /\ e_st s1 = e_st s) \/ (b = false /\ (e_st s1 = SCmd \/ e_st s1 = SCsiP \/ e_st s1 = SChs))).
Proof.
  unfold next_c1. cbv zeta. destruct s as [st buf clr ty cod]. unfold set_st, set_code. cbn [e_st e_buf e_clr e_typ e_cod].
  repeat match goal with |- context[if ?x then _ else _] => destruct x end; intro H; injection H as <- <-; cbn; auto 10.
Qed.

(** A step consumes a character (A), or drops what it has and restarts at it (B), or ends a text run before it (C). *)
Definition stepA (c : N) (s : estate) (t : list N) (d : bool) (s1 : estate) (t1 : list N) (m : bool) : Prop :=
  t1 = adv t /\ m = false /\ e_buf s1 = e_buf s /\ e_clr s1 = e_clr s /\
  match e_st s with
  | SUnk => if d then e_st s1 = SUnk else e_st s1 = SChar \/ (e_st s1 <> SUnk /\ introducer c)
  | SChar => d = false /\ e_st s1 = SChar
  | _ => e_st s1 <> SUnk /\ (d = true -> is_char (e_st s1) = false)
  end.
Definition stepB (s : estate) (t : list N) (d : bool) (s1 : estate) (t1 : list N) (m : bool) : Prop :=
  t1 = t /\ m = true /\ d = false /\ s1 = reset s /\ is_char (e_st s) = false /\ e_st s <> SUnk.
Definition stepC (s : estate) (t : list N) (d : bool) (s1 : estate) (t1 : list N) (m : bool) : Prop :=
  t1 = t /\ m = false /\ d = true /\ e_st s = SChar /\ e_st s1 = SChar.

Lemma estep_shape c s t n d s1 t1 n1 m : estep c s t n = (d, s1, t1, n1, m) -> stepA c s t d s1 t1 m \/ stepB s t d s1 t1 m \/ stepC s t d s1 t1 m.
Proof.
  destruct s as [st buf clr ty cod]. destruct st; unfold estep; cbn [e_st].
  - unfold next_unknown, in_range. destruct (c =? 27)%N eqn:E1; [intro H; injection H as <- <- <- <- <-; left; unfold stepA, introducer; cbn; split; [reflexivity|]; split; [reflexivity|]; split; [reflexivity|]; split; [reflexivity|]; right; split; [discriminate|lia]|].
    destruct ((0 <=? c) && (c <=? 31))%N; [intro H; injection H as <- <- <- <- <-; left; unfold stepA; cbn; auto|].
    destruct ((128 <=? c) && (c <=? 159))%N eqn:E2.
    + destruct (next_c1 (set_code (mkE SUnk buf clr ty cod) TC1 c)) as [b s'] eqn:E. intro H; injection H as <- <- <- <- <-. destruct (next_c1_shape _ _ _ E) as (A & B & C). cbn [set_code e_st e_buf e_clr] in *.
      left. unfold stepA. cbn [e_st e_buf e_clr]. split; [reflexivity|]. split; [reflexivity|]. split; [exact A|]. split; [exact B|].
      destruct C as [[-> C]|[-> C]]; [exact C|]. right. split; [destruct C as [->|[->| ->]]; discriminate|unfold introducer; lia].
    + intro H; injection H as <- <- <- <- <-. left. unfold stepA. cbn. auto 10.
  - unfold next_char. destruct (in_range c 0 31); intro H; injection H as <- <- <- <- <-; [right; right; unfold stepC; cbn; auto 10|left; unfold stepA; cbn; auto 10].
  - unfold next_esc. destruct (in_range c 64 95).
    + destruct (next_c1 (set_code (mkE SEsc buf clr ty cod) TC1 c)) as [b s'] eqn:E. intro H; injection H as <- <- <- <- <-. destruct (next_c1_shape _ _ _ E) as (A & B & C). cbn [set_code e_st e_buf e_clr] in *.
      left. unfold stepA. cbn [e_st e_buf e_clr]. split; [reflexivity|]. split; [reflexivity|]. split; [exact A|]. split; [exact B|].
      destruct C as [[-> ->]|[-> [->|[->| ->]]]]; (split; [discriminate|reflexivity]).
    + destruct (in_range c 96 127); intro H; injection H as <- <- <- <- <-; left; unfold stepA; cbn; (split; [reflexivity|]; split; [reflexivity|]; split; [reflexivity|]; split; [reflexivity|]; split; discriminate || reflexivity).
  - unfold next_esc_st. destruct (c =? 92)%N; intro H; injection H as <- <- <- <- <-; [left; unfold stepA; cbn|right; left; unfold stepB; cbn]; repeat (split; [reflexivity || discriminate|]); reflexivity || discriminate.
  - unfold next_csi_p, next_csi_f. destruct (in_range c 48 63); [|destruct (in_range c 32 47); [|destruct (in_range c 64 126)]]; intro H; injection H as <- <- <- <- <-;
      try (left; unfold stepA; cbn; repeat (split; [reflexivity || discriminate|]); reflexivity || discriminate);
      right; left; unfold stepB; cbn; repeat (split; [reflexivity || discriminate|]); reflexivity || discriminate.
  - unfold next_csi_f. destruct (in_range c 32 47); [|destruct (in_range c 64 126)]; intro H; injection H as <- <- <- <- <-;
      try (left; unfold stepA; cbn; repeat (split; [reflexivity || discriminate|]); reflexivity || discriminate);
      right; left; unfold stepB; cbn; repeat (split; [reflexivity || discriminate|]); reflexivity || discriminate.
  - unfold next_cmd_str. destruct (c =? 27)%N; [cbv zeta; destruct (fst (d8 (adv t)) =? 93)%N; [|destruct ((fst (d8 (adv t)) =? 92)%N && (0 <? n))]|
      destruct ((c =? 156) || (c =? 7))%N; [destruct ((c =? 7)%N && (0 <? n))|destruct (in_range c 8 13 || (32 <=? c)%N)]]; intro H; injection H as <- <- <- <- <-;
      try (left; unfold stepA; cbn; repeat (split; [reflexivity || discriminate|]); reflexivity || discriminate);
      right; left; unfold stepB; cbn; repeat (split; [reflexivity || discriminate|]); reflexivity || discriminate.
  - unfold next_char_str. destruct (c =? 27)%N; intro H; injection H as <- <- <- <- <-;
      left; unfold stepA; cbn; repeat (split; [reflexivity || discriminate|]); reflexivity || discriminate.
Qed.

Definition cur (s : estate) : list N := if e_clr s then [] else e_buf s.
Definition inv (s : estate) (t start copy : list N) : Prop :=
  match e_st s with
  | SUnk => cur s = [] /\ start = t /\ copy = t
  | SChar => exists u, start = u ++ t /\ u <> []
  | _ => start = cur s ++ t /\ copy = t /\ cur s <> [] /\ introducer (fst (d8 start))
  end.
Definition need (s : estate) (t : list N) : nat := 2 * length t + match e_st s with SUnk => 1 | _ => 2 end.
Definition good_result (start : list N) (r : option (option ecode * estate * list N)) : Prop :=
  match r with
  | None => False
  | Some (Some (_, _, x), s', t') => x <> [] /\ (forall l, splits t' l -> splits start (x :: l)) /\ length x + length t' <= length start /\ e_st s' = SUnk /\ e_clr s' = true
  | Some (None, _, _) => splits start []
  end.

Lemma nonempty_app {A} (a b : list A) : b <> [] -> a ++ b <> [].
Proof. destruct a; [auto|discriminate]. Qed.
Lemma good_emit ty c x s t : x <> [] -> e_st s = SUnk -> e_clr s = true -> good_result (x ++ t) (Some (Some (ty, c, x), s, t)).
Proof. intros Hx A B. cbn. split; [exact Hx|]. split; [intros l Hl; constructor; assumption|]. split; [|auto]. rewrite app_length. lia. Qed.
Lemma good_drop p t r : p <> [] -> introducer (fst (d8 (p ++ t))) -> good_result t r -> good_result (p ++ t) r.
Proof.
  intros Hp Hi. destruct r as [[[[[[ty c] x]|] s'] t']|]; cbn; [|intro H; apply sp_drop; assumption|tauto].
  intros (A & B & C & D & E). split; [exact A|]. split; [intros l Hl; apply sp_drop; auto|]. split; [rewrite app_length; lia|auto].
Qed.

Lemma save_plain s copy t : is_char (e_st s) = false -> save s copy t = (mkE (e_st s) (cur s ++ between copy t) false (e_typ s) (e_cod s), t).
Proof. intro H. unfold save, cur. rewrite H. reflexivity. Qed.
Lemma between_piece u t : between (u ++ t) t = u.
Proof. apply between_app. Qed.

Lemma nloop_good fuel : forall s n t start copy, inv s t start copy -> need s t <= fuel -> good_result start (nloop fuel s n t start copy).
Proof.
  induction fuel as [|fuel IH]; intros s n t start copy Hi Hf; [unfold need in Hf; destruct (e_st s); lia|].
  cbn [nloop]. destruct (fst (d8 t) =? 0)%N eqn:E0.
  - apply N.eqb_eq in E0. unfold inv in Hi. destruct (e_st s) eqn:Es; cbn [is_char].
    2: { destruct Hi as (u & -> & Hu). rewrite between_piece. apply good_emit; auto. }
    all: cbn [good_result].
    1: { destruct Hi as (_ & -> & _). apply sp_end. auto. }
    all: destruct Hi as (_ & _ & _ & Hi); apply sp_end; auto.
  - apply N.eqb_neq in E0. destruct (adv_piece t E0) as (u & Eu & Hu). pose proof (adv_len t E0) as Hl.
    destruct (estep (fst (d8 t)) s t n) as [[[[d s1] t1] n1] m] eqn:E. destruct (estep_shape _ _ _ _ _ _ _ _ _ E) as [HA|[HB|HC]].
    + destruct HA as (-> & -> & Hb & Hc & Hst). cbv beta iota.
      assert (Hcur : cur s1 = cur s) by (unfold cur; rewrite Hb, Hc; reflexivity).
      destruct (is_char (e_st s1)) eqn:Ech.
      * (* text *)
        assert (Es1 : e_st s1 = SChar) by (destruct (e_st s1); discriminate || reflexivity).
        assert (Hd : d = false).
        { destruct d; [|reflexivity]. destruct (e_st s); try (destruct Hst as [_ Hst]; specialize (Hst eq_refl); congruence). - congruence. - destruct Hst; discriminate. }
        subst d. unfold save. rewrite Ech. apply IH; [|unfold need in *; rewrite Es1; destruct (e_st s); lia].
        unfold inv. rewrite Es1. unfold inv in Hi. destruct (e_st s) eqn:Es.
        1: { destruct Hi as (_ & -> & _). exists u. auto. }
        1: { destruct Hi as (v & -> & Hv). exists (v ++ u). rewrite <- app_assoc, <- Eu. split; [reflexivity|]. apply nonempty_app. exact Hu. }
        all: destruct Hi as (-> & _ & _ & _); exists (cur s ++ u); rewrite <- app_assoc, <- Eu; split; [reflexivity|apply nonempty_app; exact Hu].
      * rewrite (save_plain s1 copy (adv t) Ech). cbv beta iota. rewrite Hcur. cbn [e_st e_buf e_clr e_typ e_cod]. rewrite Ech.
        assert (Hns : e_st s <> SChar) by (intro Es; rewrite Es in Hst; destruct Hst as [_ Hst]; rewrite Hst in Ech; discriminate).
        assert (Hx : start = (cur s ++ u) ++ adv t /\ copy = t).
        { rewrite <- app_assoc, <- Eu. unfold inv in Hi. destruct (e_st s); try congruence; [destruct Hi as (A & B & C); rewrite A; auto|..]; destruct Hi as (A & B & _); auto. }
        destruct Hx as [Hx Hcp].
        assert (Hbt : between copy (adv t) = u) by (rewrite Hcp; rewrite Eu at 1; apply between_piece). rewrite Hbt.
        destruct d; [rewrite Hx; apply good_emit; [apply nonempty_app; exact Hu|reflexivity|reflexivity]|].
        apply IH; [|unfold need in *; cbn [e_st]; destruct (e_st s), (e_st s1); lia].
        assert (Hn : e_st s1 <> SUnk).
        { destruct (e_st s); try (destruct Hst as [Hst _]; exact Hst); [destruct Hst as [Hst|[Hst _]]; [rewrite Hst; discriminate|exact Hst]|congruence]. }
        assert (Hint : introducer (fst (d8 start))).
        { unfold inv in Hi. destruct (e_st s) eqn:Es; try congruence; try (destruct Hi as (_ & _ & _ & Hi); exact Hi).
          destruct Hi as (_ & -> & _). destruct Hst as [Hst|[_ Hst]]; [rewrite Hst in Ech; discriminate|exact Hst]. }
        assert (Hnc : e_st s1 <> SChar) by (intro Es1; rewrite Es1 in Ech; discriminate).
        unfold inv, cur. cbn [e_st e_clr e_buf]. fold (cur s). destruct (e_st s1); try congruence; (split; [exact Hx|]; split; [reflexivity|]; split; [apply nonempty_app; exact Hu|exact Hint]).
    + destruct HB as (-> & -> & -> & -> & Hch & Hu0). cbv beta iota. unfold save, reset. cbn [e_st is_char e_clr e_buf e_typ e_cod].
      assert (Hx : start = cur s ++ t /\ copy = t /\ cur s <> [] /\ introducer (fst (d8 start))).
      { unfold inv in Hi. destruct (e_st s); try discriminate; try congruence; exact Hi. }
      destruct Hx as (Hx & Hcp & Hcur & Hint). subst copy. rewrite between_self. cbn [app].
      rewrite Hx in Hint |- *. apply good_drop; [exact Hcur|exact Hint|]. apply IH; [|unfold need in *; cbn [e_st]; destruct (e_st s); try congruence; lia].
      unfold inv, cur. cbn. auto.
    + destruct HC as (-> & -> & -> & Es & Es1). cbv beta iota. unfold save. rewrite Es1. cbn [is_char]. rewrite Es1. cbn [is_char].
      unfold inv in Hi. rewrite Es in Hi. destruct Hi as (v & -> & Hv). rewrite between_piece. apply good_emit; auto.
Qed.

Lemma enext_good s t : e_st s = SUnk -> e_clr s = true -> good_result t (enext s t).
Proof. intros Es Ec. apply nloop_good; [unfold inv, cur; rewrite Es, Ec; auto|unfold need; rewrite Es; lia]. Qed.

Lemma codes_total fuel : forall s t, e_st s = SUnk -> e_clr s = true -> length t < fuel -> exists l s', codes fuel s t = Some (l, s').
Proof.
  induction fuel as [|fuel IH]; intros s t Es Ec Hf; [lia|]. cbn [codes]. pose proof (enext_good s t Es Ec) as Hg.
  destruct (enext s t) as [[[[[[ty c] x]|] s'] t']|]; cbn in Hg; [|eauto|contradiction].
  destruct Hg as (Hx & _ & Hl & A & B). destruct (len16 x =? 0)%N; [eauto|]. assert (0 < length x) by (destruct x; [contradiction|cbn; lia]). destruct (IH s' t' A B ltac:(lia)) as (l & s2 & ->). eauto.
Qed.

Lemma codes_splits fuel : forall s t l s', e_st s = SUnk -> e_clr s = true -> (N.of_nat (length t) < 65536)%N -> codes fuel s t = Some (l, s') -> splits t (map snd l).
Proof.
  induction fuel as [|fuel IH]; intros s t l s' Es Ec Hn H; [discriminate|]. cbn [codes] in H. pose proof (enext_good s t Es Ec) as Hg.
  destruct (enext s t) as [[[[[[ty c] x]|] s1] t1]|]; cbn in Hg; [|injection H as <- <-; exact Hg|contradiction].
  destruct Hg as (Hx & Hsp & Hl & A & B). assert (0 < length x) by (destruct x; [contradiction|cbn; lia]).
  assert (El : len16 x = N.of_nat (length x)) by (unfold len16; apply N.mod_small; lia).
  replace (len16 x =? 0)%N with false in H by (symmetry; apply N.eqb_neq; lia).
  assert (Esx : seen x = x) by (unfold seen; rewrite El, Nat2N.id; apply firstn_all).
  destruct (codes fuel s1 t1) as [[l1 s2]|] eqn:E; [|discriminate]. injection H as <- <-. cbn [map snd]. rewrite Esx. apply Hsp. eapply IH; eauto. lia.
Qed.

Theorem parse_splits ty cod t : (N.of_nat (length t) < 65536)%N -> exists l s, parse (fresh ty cod) t = Some (l, s) /\ splits t (map snd l).
Proof.
  intro Hn. destruct (codes_total (S (length t)) (fresh ty cod) t eq_refl eq_refl ltac:(lia)) as (l & s & E). exists l, s. split; [exact E|].
  eapply codes_splits; [..|exact E]; auto.
Qed.
Theorem parse_total ty cod t : exists l s, parse (fresh ty cod) t = Some (l, s).
Proof. apply codes_total; auto. Qed.
