(** Reading in order. *)
From Coq Require Import Ascii String.
From Verif Require Import Base UtfSpec UtfModel KbSpec KbBuf.
Open Scope nat_scope.

(** states that differ only in where the buffer begins *)
Definition eqv (a b : tin) : Prop := wf a /\ wf b /\ conts a = conts b /\ t_lead a = t_lead b /\ t_prev a = t_prev b.
Lemma eqv_count a b : eqv a b -> t_count a = t_count b.
Proof. intros (_ & _ & E & _). rewrite <- (conts_length a), <- (conts_length b), E. reflexivity. Qed.
Lemma eqv_lead v a b : eqv a b -> eqv (set_lead v a) (set_lead v b).
Proof. intros (A & B & C & D & E). split; [exact A|]. split; [exact B|]. split; [exact C|]. split; [reflexivity|exact E]. Qed.
Lemma eqv_byte x a b : eqv a b -> eqv (push_byte x a) (push_byte x b).
Proof.
  intro H. pose proof (eqv_count _ _ H) as Hc. destruct H as (A & B & C & D & E). destruct (push_byte_rest x a) as (A1 & A2 & A3 & _). destruct (push_byte_rest x b) as (B1 & B2 & B3 & _).
  split; [apply push_byte_wf, A|]. split; [apply push_byte_wf, B|]. split; [|split; congruence]. destruct (Nat.lt_ge_cases (t_count a) size) as [Hl|Hg].
  - rewrite !push_byte_conts by (assumption || lia). rewrite C. reflexivity.
  - unfold push_byte. replace (t_count a <? size) with false by lia. replace (t_count b <? size) with false by lia. exact C.
Qed.
Lemma eqv_bytes l : forall a b, eqv a b -> eqv (push_bytes l a) (push_bytes l b).
Proof. induction l as [|x l IH]; intros a b H; [exact H|]. unfold push_bytes in *. cbn [fold_left]. apply IH, eqv_byte, H. Qed.
Lemma eqv_val v a b : eqv a b -> eqv (push_val v a) (push_val v b).
Proof.
  intro H. unfold push_val. assert (L : t_lead a = t_lead b) by apply H. rewrite L. destruct (v <? 128)%N; [apply eqv_byte, eqv_lead, H|]. destruct (is_lead_surrogate v); [apply eqv_lead, H|]. apply eqv_bytes, eqv_lead, H.
Qed.
Lemma eqv_vals l : forall a b, eqv a b -> eqv (push_vals l a) (push_vals l b).
Proof. induction l as [|x l IH]; intros a b H; [exact H|]. unfold push_vals in *. cbn [fold_left]. apply IH, eqv_val, H. Qed.
Lemma eqv_act x a b : eqv a b -> eqv (apply_act x a) (apply_act x b).
Proof.
  intro H. destruct x as [|s|l|]; cbn [apply_act]; [exact H|apply eqv_bytes, eqv_lead, H|apply eqv_vals, H|]. destruct H as ((A1 & A2 & A3) & (B1 & B2 & B3) & C & D & E). assert (Z : 0 < size) by (unfold size; lia).
  split; [|split; [|split; [|split; assumption]]]; try (unfold wf; cbn [t_buf t_head t_count]; rewrite set_nth_len by lia; lia). unfold conts. cbn [t_buf t_head t_count seq map]. rewrite !set_nth_get by lia. reflexivity.
Qed.
Lemma set_count_conts n t : n <= t_count t -> conts (set_count n t) = firstn n (conts t).
Proof. intro H. unfold conts. cbn [set_count t_buf t_head t_count]. rewrite firstn_map. f_equal. replace (t_count t) with (n + (t_count t - n)) by lia. rewrite seq_app, firstn_app, seq_length, Nat.sub_diag, firstn_O, app_nil_r, firstn_all2; [reflexivity|rewrite seq_length; lia]. Qed.
Lemma eqv_set_count n a b : n <= t_count a -> eqv a b -> eqv (set_count n a) (set_count n b).
Proof. intros Hn H. pose proof (eqv_count _ _ H) as Hc. destruct H as ((A1 & A2 & A3) & (B1 & B2 & B3) & C & D & E). split; [unfold wf; cbn [set_count t_buf t_head t_count]; lia|]. split; [unfold wf; cbn [set_count t_buf t_head t_count]; lia|]. rewrite !set_count_conts by lia. rewrite C. auto. Qed.
Lemma chord_eq n t : n <= t_count t -> map (fun i => nth ((t_head t + i) mod size) (t_buf t) 0%N) (seq 0 n) = firstn n (conts t).
Proof. intro H. rewrite <- set_count_conts by exact H. reflexivity. Qed.
Section Q.
Variable kn : N -> N -> option N.
Variable g : settings.
Variable acc : mtype -> bool.
Variable lines : Z.
Variable ks : option keys.
Notation pin := (process_input kn g acc lines false).
Notation prec := (process_record kn g acc lines ks false).
Notation kpeek := (peek_record kn g acc lines false).
Lemma eqv_filter n a b : eqv a b -> eqv (filter_unbound_input ks n a) (filter_unbound_input ks n b).
Proof.
  intro H. pose proof (eqv_count _ _ H) as Hc. unfold filter_unbound_input. destruct ks as [k|]; [|exact H]. rewrite Hc. destruct (t_count b <=? n) eqn:E; [exact H|]. rewrite !chord_eq by lia. assert (C : conts a = conts b) by apply H. rewrite C.
  destruct (ks_translate k _) as [new|]; [apply eqv_vals, eqv_set_count; [lia|exact H]|]. destruct (ks_bound k _); [exact H|apply eqv_set_count; [lia|exact H]].
Qed.
Lemma eqv_prev p a b : eqv a b -> eqv (mkT (t_buf a) (t_head a) (t_count a) (t_lead a) p (t_pend a)) (mkT (t_buf b) (t_head b) (t_count b) (t_lead b) p (t_pend b)).
Proof. clear kn g acc lines ks. intros (A & B & C & D & E). split; [exact A|]. split; [exact B|]. split; [exact C|]. split; [exact D|reflexivity]. Qed.
Lemma eqv_input r a b : eqv a b -> eqv (pin r a) (pin r b).
Proof.
  intro H. pose proof (eqv_count _ _ H) as Hc. destruct r as [k|m|ch|]; cbn [process_input]; [rewrite Hc; apply eqv_act, H| |exact H|exact H]. assert (P : t_prev a = t_prev b) by apply H. rewrite P. apply eqv_act, eqv_prev, H.
Qed.
Lemma eqv_record r a b : eqv a b -> fst (prec r a) = fst (prec r b) /\ eqv (snd (prec r a)) (snd (prec r b)).
Proof.
  intro H. pose proof (eqv_count _ _ H) as Hc. unfold process_record. destruct r as [k|m|ch|]; cbn [fst snd]; [| |auto|auto].
  - rewrite Hc. assert (X := eqv_filter (t_count b) _ _ (eqv_input (RKey k) _ _ H)). rewrite (eqv_count _ _ X). auto.
  - assert (X := eqv_input (RMouse m) _ _ H). rewrite (eqv_count _ _ X), Hc. auto.
Qed.
(** pending records are left alone *)
Lemma vals_pend l : forall t, t_pend (push_vals l t) = t_pend t.
Proof. clear kn g acc lines ks. induction l as [|v l IH]; intro t; [reflexivity|]. unfold push_vals in *. cbn [fold_left]. rewrite IH. unfold push_val. destruct (v <? 128)%N; [exact (proj1 (proj2 (proj2 (push_byte_rest v (set_lead 0 t)))))|]. destruct (is_lead_surrogate v); [reflexivity|]. match goal with |- t_pend (push_bytes ?l _) = _ => exact (proj1 (proj2 (proj2 (push_bytes_rest l (set_lead 0 t))))) end. Qed.
Lemma act_pend x t : t_pend (apply_act x t) = t_pend t.
Proof. clear kn g acc lines ks. destruct x as [|s|l|]; cbn [apply_act]; [reflexivity|exact (proj1 (proj2 (proj2 (push_bytes_rest (cut_nul s) (set_lead 0 t)))))|apply vals_pend|reflexivity]. Qed.
Lemma input_pend r t : t_pend (pin r t) = t_pend t.
Proof. destruct r as [k|m|ch|]; cbn [process_input]; [apply act_pend|rewrite act_pend; reflexivity|reflexivity|reflexivity]. Qed.
Lemma filter_pend n t : t_pend (filter_unbound_input ks n t) = t_pend t.
Proof. unfold filter_unbound_input. destruct ks as [k|]; [|reflexivity]. destruct (_ <=? _); [reflexivity|]. cbv zeta. destruct (ks_translate k _); [rewrite vals_pend; reflexivity|]. destruct (ks_bound k _); reflexivity. Qed.
Lemma record_pend r t : t_pend (snd (prec r t)) = t_pend t.
Proof. unfold process_record. destruct r as [k|m|ch|]; cbn [snd]; [rewrite filter_pend; apply input_pend|apply input_pend|reflexivity|reflexivity]. Qed.

(** ** What is sent, one record after another *)
Definition canon (l : N) (p : bool * bool) : tin := mkT (repeat 0%N size) 0 0 l p [].
Definition step (lp : N * (bool * bool)) (r : record) : bytes * (N * (bool * bool)) := let t := snd (prec r (canon (fst lp) (snd lp))) in (conts t, (t_lead t, t_prev t)).
Lemma canon_wf l p : wf (canon l p).
Proof. clear kn g acc lines ks. unfold wf, canon. cbn [t_buf t_head t_count]. rewrite repeat_length. unfold size. lia. Qed.
Lemma conts_nil t : t_count t = 0 -> conts t = [].
Proof. clear kn g acc lines ks. intro H. unfold conts. rewrite H. reflexivity. Qed.
Lemma canon_eqv t : wf t -> t_count t = 0 -> eqv t (canon (t_lead t) (t_prev t)).
Proof. clear kn g acc lines ks. intros H Hc. split; [exact H|]. split; [apply canon_wf|]. rewrite conts_nil by exact Hc. auto. Qed.
Lemma step_of r t : wf t -> t_count t = 0 -> let t' := snd (prec r t) in wf t' /\ (conts t', (t_lead t', t_prev t')) = step (t_lead t, t_prev t) r /\ t_pend t' = t_pend t.
Proof.
  intros H Hc. cbv zeta. destruct (eqv_record r _ _ (canon_eqv t H Hc)) as [_ (A & B & C & D & E)]. split; [exact A|]. split; [|apply record_pend]. unfold step. cbn [fst snd]. rewrite C, D, E. reflexivity.
Qed.
Definition vis (l : bytes) : list result := flat_map (fun c => match translate_special c with Resize | None_ => [] | r => [r] end) l.
Fixpoint outs (lp : N * (bool * bool)) (rs : list record) : list result := match rs with [] => [] | r :: rs' => let '(b, lp) := step lp r in vis b ++ outs lp rs' end.
Definition out (s : tin * list record) : list result := let '(t, q) := s in vis (conts t) ++ outs (t_lead t, t_prev t) (t_pend t ++ q).
Definition measure (s : tin * list record) : nat := let '(t, q) := s in t_count t + 17 * length (t_pend t ++ q).
Lemma outs_cons lp r rs : outs lp (r :: rs) = vis (fst (step lp r)) ++ outs (snd (step lp r)) rs.
Proof. cbn [outs]. destruct (step lp r); reflexivity. Qed.
Lemma loop_false q : forall t, wf t -> t_count t = 0 -> t_pend t = [] ->
  let s := console_loop kn g acc lines ks false false q t in wf (fst s) /\ out s = out (t, q) /\ t_pend (fst s) = [] /\ (measure s < measure (t, q) \/ q = []) /\ measure s <= measure (t, q).
Proof.
  induction q as [|r q IH]; intros t H Hc Hp; cbv zeta; cbn [console_loop]; [cbn [fst]; auto 6|]. destruct (step_of r t H Hc) as (A & B & C). cbv zeta in *. rewrite Hp in C. destruct (prec r t) as [ret t'] eqn:E. cbn [snd] in *.
  assert (O : out (t', q) = out (t, r :: q)). { unfold out. rewrite C, Hp, conts_nil with (t := t) by exact Hc. cbn [vis flat_map app]. rewrite outs_cons, <- B. reflexivity. }
  assert (M : measure (t', q) < measure (t, r :: q)). { unfold measure. rewrite C, Hp, Hc. cbn [app length]. destruct A as (_ & _ & A). unfold size in A. lia. }
  destruct ret; [cbn [fst]; split; [exact A|]; split; [exact O|]; split; [exact C|]; split; [left; exact M|lia]|].
  assert (Z : t_count t' = 0). { revert E. unfold process_record. destruct r as [k|m|ch|]; intro E; pose proof (f_equal fst E) as E1; pose proof (f_equal snd E) as E2; cbn [fst snd] in E1, E2; try (subst t'; lia); subst t'; exact Hc. }
  destruct (IH t' A Z C) as (W1 & W2 & W3 & W4 & W5). cbv zeta in *. split; [exact W1|]. split; [rewrite W2; exact O|]. split; [exact W3|]. split; [left; lia|lia].
Qed.
Notation cal := (call kn g acc lines ks).
Definition ok (s : tin * list record) : Prop := wf (fst s).
Lemma select_ok s : ok s -> let r := cal OSelect s in ok (snd r) /\ out s = fst r ++ out (snd r) /\ measure (snd r) <= measure s /\ (t_count (fst (snd r)) = 0 -> measure (snd r) = measure s -> measure s = 0).
Proof.
  destruct s as [t q]. unfold ok. cbn [fst]. intro H. cbv zeta. cbn [call fst snd app]. unfold select, read_console. destruct (0 <? t_count t) eqn:Ec; [cbn [fst]; split; [exact H|]; split; [reflexivity|]; split; [lia|intros; lia]|]. assert (Hc : t_count t = 0) by lia. clear Ec.
  destruct (t_pend t) as [|r p] eqn:Ep.
  - destruct (loop_false q t H Hc Ep) as (A & B & C & D & E). cbv zeta in *. split; [exact A|]. split; [symmetry; exact B|]. split; [exact E|]. intros _ Hm. destruct D as [D|D]; [lia|]. unfold measure. rewrite D, Ep, Hc. reflexivity.
  - cbn [fst]. destruct (step_of r (set_pend p t) H Hc) as (A & B & C). cbv zeta in *. cbn [set_pend t_lead t_prev t_pend] in *. split; [exact A|]. split; [unfold out; rewrite Ep, C, (conts_nil t Hc); cbn [vis flat_map app]; rewrite outs_cons, <- B; reflexivity|].
    assert (M : measure (snd (prec r (set_pend p t)), q) < measure (t, q)). { unfold measure. rewrite C, Ep, Hc. cbn [app length]. destruct A as (_ & _ & A). unfold size in A. lia. } split; [lia|]. intros _ X. lia.
Qed.
Lemma vis_cons c l : vis (c :: l) = (match translate_special c with Resize | None_ => [] | r => [r] end) ++ vis l. Proof. clear kn g acc lines ks. reflexivity. Qed.
Lemma read_ok z s : ok s -> let r := cal (ORead z) s in ok (snd r) /\ out s = fst r ++ out (snd r) /\ measure (snd r) <= measure s /\ (z = false -> 0 < t_count (fst s) -> measure (snd r) < measure s).
Proof.
  destruct s as [t q]. unfold ok. cbn [fst]. intro H. cbv zeta. cbn [call]. unfold read. destruct z; [cbn [fst snd app]; split; [exact H|]; split; [reflexivity|]; split; [lia|discriminate]|]. cbv zeta.
  assert (P : forall t, wf t -> let r := (let '(r, t) := (if 0 <? t_count t then let '(c, t) := pop t in (translate_special c, t) else (None_, t)) in (match r with Resize | None_ => [] | _ => [r] end, (t, q))) in wf (fst (snd r)) /\ out (t, q) = fst r ++ out (snd r) /\ measure (snd r) <= measure (t, q) /\ (0 < t_count t -> measure (snd r) < measure (t, q))).
  { clear t H. intros t H. cbv zeta. destruct (0 <? t_count t) eqn:Ec; [|cbn [fst snd app]; split; [exact H|]; split; [reflexivity|]; split; [lia|lia]]. destruct (conts t) as [|c l] eqn:El; [pose proof (conts_length t) as L; rewrite El in L; cbn in L; lia|].
    destruct (pop_ok t c l H El) as (t' & Ep & Hw & E1 & E2 & E3 & E4 & E5). rewrite Ep. cbn [fst snd]. split; [exact Hw|]. split; [unfold out; rewrite El, E1, E2, E3, E4, vis_cons, <- app_assoc; destruct (translate_special c); reflexivity|]. unfold measure. rewrite E4, E5. lia. }
  destruct (0 <? t_count t) eqn:Ec.
  - specialize (P t H). cbv zeta in P. rewrite Ec in P |- *. destruct P as (P1 & P2 & P3 & P4). cbv zeta in *. split; [exact P1|]. split; [exact P2|]. split; [exact P3|]. intros _. exact P4.
  - assert (Hc : t_count t = 0) by lia. destruct (t_pend t) as [|r p] eqn:Ep.
    + specialize (P t H). cbv zeta in P. destruct P as (P1 & P2 & P3 & P4). split; [exact P1|]. split; [exact P2|]. split; [exact P3|]. intros. lia.
    + destruct (step_of r (set_pend p t) H Hc) as (A & B & C). cbv zeta in *. cbn [set_pend t_lead t_prev t_pend] in *. specialize (P _ A). cbv zeta in P. destruct P as (P1 & P2 & P3 & P4).
      assert (O : out (t, q) = out (snd (prec r (set_pend p t)), q)). { unfold out. rewrite Ep, C, (conts_nil t Hc). cbn [vis flat_map app]. rewrite outs_cons, <- B. reflexivity. }
      assert (M : measure (snd (prec r (set_pend p t)), q) < measure (t, q)). { unfold measure. rewrite C, Ep, Hc. cbn [app length]. destruct A as (_ & _ & A). unfold size in A. lia. }
      split; [exact P1|]. split; [rewrite O; exact P2|]. split; [lia|]. intros. lia.
Qed.
(** ** Drained *)
Notation cals := (calls kn g acc lines ks).
Lemma calls_cons o l s : cals (o :: l) s = (fst (cal o s) ++ fst (cals l (snd (cal o s))), snd (cals l (snd (cal o s)))).
Proof. cbn [calls]. destruct (cal o s) as [a s']. cbn [fst snd]. destruct (cals l s'). reflexivity. Qed.
Lemma out_empty s : ok s -> measure s = 0 -> out s = [].
Proof. destruct s as [t q]. unfold measure, out. intros _ H. destruct (t_pend t ++ q) as [|? ?]; [|cbn in H; lia]. rewrite conts_nil by (cbn in H; lia). reflexivity. Qed.
Lemma straight_out n : forall s, ok s -> measure s <= n -> fst (cals (straight n) s) = out s.
Proof.
  induction n as [|n IH]; intros s Hs Hm; [cbn [straight calls fst]; symmetry; apply out_empty; [exact Hs|lia]|]. cbn [straight]. rewrite !calls_cons. cbn [fst snd].
  destruct (select_ok s Hs) as (A1 & A2 & A3 & A4). cbv zeta in *. set (s1 := snd (cal OSelect s)) in *. destruct (read_ok false s1 A1) as (B1 & B2 & B3 & B4). cbv zeta in *. set (s2 := snd (cal (ORead false) s1)) in *.
  rewrite IH; [rewrite A2, B2; reflexivity|exact B1|]. destruct (Nat.eq_dec (measure s) 0); [lia|]. destruct (Nat.eq_dec (t_count (fst s1)) 0) as [E|E]; [|specialize (B4 eq_refl ltac:(lia)); lia]. destruct (Nat.eq_dec (measure s1) (measure s)) as [E2|E2]; [specialize (A4 E E2)|]; lia.
Qed.
Lemma kept_out l : forall s, ok s -> Forall keeps l -> ok (snd (cals l s)) /\ out s = fst (cals l s) ++ out (snd (cals l s)) /\ measure (snd (cals l s)) <= measure s.
Proof.
  induction l as [|o l IH]; intros s Hs Hk; [cbn; auto|]. inversion Hk as [|? ? Ho Hl]; subst. rewrite calls_cons. cbn [fst snd].
  assert (X : ok (snd (cal o s)) /\ out s = fst (cal o s) ++ out (snd (cal o s)) /\ measure (snd (cal o s)) <= measure s).
  { destruct o; try destruct Ho; [destruct (select_ok s Hs) as (A1 & A2 & A3 & _); auto|destruct (read_ok resized s Hs) as (A1 & A2 & A3 & _); auto]. }
  destruct X as (X1 & X2 & X3). destruct (IH _ X1 Hl) as (Y1 & Y2 & Y3). split; [exact Y1|]. split; [rewrite X2, Y2 at 1; apply app_assoc|lia].
Qed.
End Q.
