(** Looking ahead does not disturb the order. *)
From Coq Require Import Ascii String.
From Verif Require Import Base UtfSpec UtfModel KbSpec KbBuf KbQueue.
Open Scope nat_scope.

Definition vals_of (k : key) (a : act) : Prop := match a with AVals l => exists v, (l = [v] \/ l = [27%N; v]) /\ (v = k_char k \/ (v < 128)%N) | _ => True end.
Section P.
Variable kn : N -> N -> option N.
Variable g : settings.
Variable acc : mtype -> bool.
Variable lines : Z.
Variable ks : option keys.
Notation pin := (process_input kn g acc lines false).
Notation prec := (process_record kn g acc lines ks false).
Notation kpeek := (peek_record kn g acc lines false).
Lemma bracket_small vk sc v : translate_ctrl_bracket kn g vk sc = Some v -> (v < 128)%N.
Proof. unfold translate_ctrl_bracket. destruct (kn vk sc) as [c|]; [|discriminate]. destruct (c =? 91)%N eqn:E; [destruct (g_raw_esc g); [|discriminate]; intro H; injection H as <-; lia|]. destruct ((c =? 93) || (c =? 92))%N eqn:E2; [|discriminate]. intro H. injection H as <-. lia. Qed.
Lemma ctrl_code_small c vk sc f v : ctrl_code kn g c vk sc f = Some v -> (v < 128)%N.
Proof.
  unfold ctrl_code. assert (B := bracket_small vk sc). destruct (negb (f_shift f) || _ || _ || _); [|discriminate]. cbv zeta. destruct (is_letter vk) eqn:El.
  - destruct (((vk =? 72) || (vk =? 73)) && g_diff g)%N; [apply B|]. destruct ((vk =? 77) && (g_diff g || g_windows g))%N; [apply B|]. intro H. injection H as <-. unfold is_letter in El. lia.
  - destruct (vk =? 50)%N; [destruct (g_diff g && negb (f_shift f)); [apply B|intro H; injection H as <-; lia]|]. destruct (vk =? 54)%N; [destruct (g_diff g && negb (f_shift f)); [apply B|intro H; injection H as <-; lia]|]. destruct (vk =? VK_OEM_MINUS)%N; [destruct (f_shift f); [intro H; injection H as <-; lia|discriminate]|].
    destruct (c =? 27)%N eqn:Ec; [destruct (g_diff g); [apply B|intro H; injection H as <-; lia]|]. destruct ((c =? 28) || (c =? 29))%N eqn:Ed; [intro H; injection H as <-; lia|apply B].
Qed.
Lemma with_alt_vals k f v : v = k_char k \/ (v < 128)%N -> vals_of k (with_alt f v).
Proof. intro H. unfold with_alt, vals_of. exists v. split; [destruct (alt f); auto|exact H]. Qed.
Lemma process_vals e k : vals_of k (process_key kn g false e k).
Proof.
  unfold process_key. cbv zeta. destruct (negb (k_down k) && _); [exact Logic.I|]. destruct (k_vk k =? VK_MENU)%N; [destruct (k_char k =? 0)%N; [exact Logic.I|exists (k_char k); auto]|]. destruct (_ || _ || _ || _); [exact Logic.I|]. match goal with |- context [match ?x with Some s => ASeq s | None => _ end] => destruct x; [exact Logic.I|] end.
  destruct (altgr_sub g (k_char k) (k_flags k)) as [c f] eqn:Es. assert (Hc : c = k_char k \/ c = 0%N). { revert Es. unfold altgr_sub. destruct (f_lalt _ && _); [|intro H; injection H as <- _; auto]. destruct (_ && negb (g_altgr g)); [intro H; injection H as <- _; auto|]. destruct (_ && _); intro H; injection H as <- _; auto. }
  clear Es. destruct ((k_vk k =? VK_TAB)%N && _ && _); [exact Logic.I|]. destruct ((k_vk k =? VK_SPACE)%N && _ && _); [exact Logic.I|]. destruct ((k_vk k =? VK_RETURN)%N && _ && _); [exact Logic.I|].
  set (f' := if (31 <? c)%N && negb (c =? 127)%N && ctrl f then mkF (f_shift f) false false false false (f_other f) else f). clearbody f'. destruct ((c =? 9)%N && _ && _ && _); [exact Logic.I|]. destruct (_ && _); [destruct (_ && _ && _); exact Logic.I|]. destruct (_ && _ && _ && _ && _ && _); [exact Logic.I|]. destruct (_ && _ && _ && _ && _); [exact Logic.I|].
  destruct (negb (c =? 0)%N && simple_char g c (k_vk k) f'); [apply with_alt_vals; destruct Hc as [->| ->]; [auto|right; lia]|].
  unfold process_rest. destruct (seqs_of (k_vk k)); [exact Logic.I|]. cbv zeta. destruct (ctrl f'); [|destruct (is_vk_recognized _); exact Logic.I]. destruct (ctrl_code _ _ _ _ _ _) as [v|] eqn:Ev; [|destruct (is_vk_recognized _); exact Logic.I]. apply with_alt_vals. right. exact (ctrl_code_small _ _ _ _ _ Ev).
Qed.
Lemma push_val_lead v t : t_lead (push_val v t) = if is_lead_surrogate v then v else 0%N.
Proof.
  unfold push_val. destruct (v <? 128)%N eqn:E; [rewrite (proj1 (push_byte_rest v (set_lead 0 t))); unfold is_lead_surrogate; replace ((55296 <=? v) && (v <=? 56319))%N with false by lia; reflexivity|]. destruct (is_lead_surrogate v); [reflexivity|]. match goal with |- t_lead (push_bytes ?l _) = _ => exact (proj1 (push_bytes_rest l (set_lead 0 t))) end.
Qed.
Lemma set_lead_twice a b t : set_lead a (set_lead b t) = set_lead a t. Proof. reflexivity. Qed.
Lemma set_lead_same t : set_lead (t_lead t) t = t. Proof. destruct t. reflexivity. Qed.
Lemma act_again k a t : vals_of k a -> t_lead t = 0%N -> apply_act a (set_lead (t_lead (apply_act a t)) t) = apply_act a t.
Proof.
  intros Hv Hl. destruct a as [|s|l|]; cbn [apply_act].
  - apply set_lead_same.
  - unfold push_seq. rewrite (proj1 (push_bytes_rest (cut_nul s) (set_lead 0 t))). reflexivity.
  - destruct Hv as (v & [-> | ->] & _); unfold push_vals; cbn [fold_left].
    + rewrite push_val_lead. unfold push_val. destruct (v <? 128)%N; [destruct (is_lead_surrogate v); reflexivity|]. destruct (is_lead_surrogate v); [reflexivity|]. rewrite Hl. cbn [set_lead t_lead]. reflexivity.
    + reflexivity.
  - cbn [t_lead]. destruct t. reflexivity.
Qed.
Lemma key_lead k t : let l := t_lead (pin (RKey k) t) in l = t_lead t \/ l = 0%N \/ (l = k_char k /\ is_lead l).
Proof.
  cbn [process_input]. set (a := process_key _ _ _ _ _). assert (Hv : vals_of k a) by apply process_vals. clearbody a. cbv zeta. destruct a as [|s|l|]; cbn [apply_act]; [auto| | |auto].
  - right. left. exact (proj1 (push_bytes_rest (cut_nul s) (set_lead 0 t))).
  - right. destruct Hv as (v & Hl & Hv). assert (E : t_lead (push_vals l t) = if is_lead_surrogate v then v else 0%N) by (destruct Hl as [-> | ->]; unfold push_vals; cbn [fold_left]; apply push_val_lead). rewrite E. unfold is_lead_surrogate, is_lead. destruct ((55296 <=? v) && (v <=? 56319))%N eqn:B; [|auto]. right. destruct Hv as [-> | Hv]; [split; [reflexivity|lia]|lia].
Qed.
Lemma sext_lead l : forall t, t_lead (push_vals (map sext l) t) = t_lead t \/ t_lead (push_vals (map sext l) t) = 0%N.
Proof.
  induction l as [|b l IH]; intro t; [auto|]. unfold push_vals in *. cbn [map fold_left]. destruct (IH (push_val (sext b) t)) as [E|E]; [|auto]. right. rewrite E, push_val_lead. unfold is_lead_surrogate, sext. destruct (b <? 128)%N eqn:B; [replace ((55296 <=? b) && (b <=? 56319))%N with false by lia; reflexivity|]. replace ((55296 <=? 4294967040 + b) && (4294967040 + b <=? 56319))%N with false by lia. reflexivity.
Qed.
Lemma filter_lead n t : t_lead (filter_unbound_input ks n t) = t_lead t \/ t_lead (filter_unbound_input ks n t) = 0%N.
Proof. unfold filter_unbound_input. destruct ks as [k|]; [|auto]. destruct (_ <=? _); [auto|]. cbv zeta. destruct (ks_translate k _) as [new|]; [exact (sext_lead new (set_count n t))|]. destruct (ks_bound k _); auto. Qed.
Lemma second_act e k : k_down k = true -> second_half k -> exists b, process_key kn g false e k = AVals (if b : bool then [27; k_char k] else [k_char k])%N.
Proof.
  intros Hd (Hc & Hv & Hf). unfold process_key. cbv zeta. rewrite Hd. cbn [negb andb]. assert (V : forall x, In x [VK_MENU; VK_CONTROL; VK_SHIFT; VK_LWIN; VK_RWIN; VK_TAB; VK_SPACE; VK_RETURN; 72; 73; 77; VK_BACK]%N -> (k_vk k =? x)%N = false) by (intros x Hx; destruct Hv as [-> | ->]; cbn [In] in Hx; repeat (destruct Hx as [<- | Hx]; [reflexivity|]); destruct Hx).
  rewrite (V VK_MENU), (V VK_CONTROL), (V VK_SHIFT), (V VK_LWIN), (V VK_RWIN) by (cbn; tauto). cbn [orb]. replace (k_char k =? 27)%N with false by lia. cbn [andb].
  assert (E : altgr_sub g (k_char k) (k_flags k) = (k_char k, k_flags k)) by (unfold altgr_sub; rewrite Hf; cbn [andb]; destruct (_ && _); reflexivity). rewrite E. rewrite (V VK_TAB), (V VK_SPACE), (V VK_RETURN) by (cbn; tauto). cbn [andb]. rewrite Hf, andb_false_r.
  replace (k_char k =? 9)%N with false by lia. cbn [andb]. replace ((VK_F1 <=? k_vk k) && (k_vk k <=? VK_F12))%N with false by (destruct Hv as [-> | ->]; reflexivity). replace (k_char k =? 79)%N with false by lia. replace (k_char k =? 91)%N with false by lia. rewrite !andb_false_r. cbn [andb].
  replace (k_char k =? 0)%N with false by lia. unfold simple_char. rewrite (V 72%N), (V 73%N), (V 77%N), (V VK_RETURN), (V VK_BACK) by (cbn; tauto). replace (k_char k =? 27)%N with false by lia. cbn [orb andb]. rewrite Hf. cbn [negb orb andb]. exists (alt (k_flags k)). unfold with_alt. reflexivity.
Qed.
Lemma push_bytes_more l : forall y, t_count y <= t_count (push_bytes l y).
Proof. induction l as [|c l IH]; intro y; [apply le_n|]. unfold push_bytes in *. cbn [fold_left]. eapply Nat.le_trans; [|apply IH]. unfold push_byte. destruct (_ <? _); cbn [t_count]; lia. Qed.
Lemma second_sends k t : wf t -> t_count t = 0 -> is_lead (t_lead t) -> k_down k = true -> second_half k -> let t' := pin (RKey k) t in 0 < t_count t' /\ t_lead t' = 0%N.
Proof.
  intros Hw Hc Hl Hd Hs. cbv zeta. cbn [process_input]. destruct (second_act (t_count t =? 0) k Hd Hs) as (b & ->). destruct Hs as (Hs & _). cbn [apply_act].
  assert (L : is_lead_surrogate (k_char k) = false) by (unfold is_lead_surrogate; lia). destruct b; unfold push_vals; cbn [fold_left].
  - rewrite push_val_lead, L. split; [|reflexivity]. rewrite (push_val_ascii 27) by lia. unfold push_val at 1. replace (k_char k <? 128)%N with false by lia. rewrite L. set (x := push_byte 27 (set_lead 0 t)).
    assert (X : t_count x = 1) by (unfold x; rewrite push_byte_count; cbn [set_lead t_count]; unfold size; lia). match goal with |- 0 < t_count (push_bytes ?l ?y) => pose proof (push_bytes_more l y) as Y end. cbn [set_lead t_count] in Y. lia.
  - rewrite push_val_lead, L. split; [|reflexivity]. unfold push_val. replace (k_char k <? 128)%N with false by lia. rewrite L. unfold is_lead in Hl. replace (t_lead t =? 0)%N with false by lia. rewrite N.mod_small by lia. set (v := (65536 + (t_lead t - 55296) * 1024 + (k_char k - 56320))%N).
    assert (E : [t_lead t; k_char k] = utf16 v) by (unfold utf16, v; replace (65536 + (t_lead t - 55296) * 1024 + (k_char k - 56320) <? 65536)%N with false by lia; repeat f_equal; lia). rewrite E, utf8_scalar by (unfold scalar, v; lia).
    destruct (push_bytes_conts (utf8 v) (set_lead 0 t)) as [_ B]; [exact Hw|cbn [set_lead t_count]; pose proof (utf8_len v); unfold size; lia|]. rewrite B. cbn [set_lead t_count]. unfold utf8. repeat match goal with |- context [if ?b then _ else _] => destruct b end; cbn [length]; lia.
Qed.
(** ** The invariant *)
Notation st := (step kn g acc lines ks).
Notation cal := (call kn g acc lines ks).
Notation cals := (calls kn g acc lines ks).
Notation ot := (out kn g acc lines ks).
Definition half_ok (l : N) (h : bool) : Prop := l <> 0%N -> h = true /\ is_lead l.
Lemma vals_prev l : forall t, t_prev (push_vals l t) = t_prev t.
Proof. induction l as [|v l IH]; intro t; [reflexivity|]. unfold push_vals in *. cbn [fold_left]. rewrite IH. unfold push_val. destruct (v <? 128)%N; [exact (proj1 (proj2 (push_byte_rest v (set_lead 0 t))))|]. destruct (is_lead_surrogate v); [reflexivity|]. match goal with |- t_prev (push_bytes ?l _) = _ => exact (proj1 (proj2 (push_bytes_rest l (set_lead 0 t)))) end. Qed.
Lemma key_prev k t : t_prev (pin (RKey k) t) = t_prev t.
Proof. cbn [process_input]. destruct (process_key _ _ _ _ _) as [|s|l|]; cbn [apply_act]; [reflexivity|exact (proj1 (proj2 (push_bytes_rest (cut_nul s) (set_lead 0 t))))|apply vals_prev|reflexivity]. Qed.
Lemma up_none e k : goes_up k = true -> process_key kn g false e k = ANone.
Proof. unfold goes_up. intro H. apply andb_prop in H. destruct H as [H1 H2]. unfold process_key. cbv zeta. rewrite H1. destruct (k_vk k =? VK_MENU)%N; [discriminate|]. reflexivity. Qed.
Lemma filter_none n t : t_count t <= n -> filter_unbound_input ks n t = t.
Proof. intro H. unfold filter_unbound_input. destruct ks; [|reflexivity]. replace (t_count t <=? n) with true by lia. reflexivity. Qed.
Lemma step_key_lead l p k : fst (snd (st (l, p) (RKey k))) = t_lead (pin (RKey k) (canon l p)) \/ fst (snd (st (l, p) (RKey k))) = 0%N.
Proof. unfold step. cbn [fst snd process_record]. apply filter_lead. Qed.
Lemma step_inv l p r h q : half_ok l h -> paired h (r :: q) -> exists h', half_ok (fst (snd (st (l, p) r))) h' /\ paired h' q.
Proof.
  intros Hl Hp. inversion Hp as [|h0 k q0 Hu Hq|k q0 Hc Hq|k q0 Hd Hs Hq|k q0 Hc Hq|h0 c q0 Hq|h0 q0 Hq]; subst.
  - exists h. split; [|exact Hq]. unfold step. cbn [fst snd process_record process_input]. rewrite up_none by exact Hu. cbn [apply_act]. rewrite filter_none by (cbn; lia). exact Hl.
  - exists true. split; [|exact Hq]. intro Hn. split; [reflexivity|]. destruct (step_key_lead l p k) as [E|E]; [|congruence]. rewrite E in *. destruct (key_lead k (canon l p)) as [A|[A|[_ A]]]; [cbn [canon t_lead] in A; destruct (N.eq_dec l 0) as [->|Hz]; [congruence|destruct (Hl Hz); discriminate]|congruence|exact A].
  - exists false. split; [|exact Hq]. intro Hn. exfalso. destruct (step_key_lead l p k) as [E|E]; [|congruence]. rewrite E in Hn. destruct (N.eq_dec l 0) as [->|Hz].
    + destruct (key_lead k (canon 0 p)) as [A|[A|[A B]]]; [cbn [canon t_lead] in A; congruence|congruence|]. rewrite A in B. destruct Hs as [Hs _]. unfold is_lead in B. lia.
    + destruct (second_sends k (canon l p) (canon_wf l p) eq_refl (proj2 (Hl Hz)) Hd Hs) as [_ A]. congruence.
  - exists false. split; [|exact Hq]. intro Hn. exfalso. destruct (step_key_lead l p k) as [E|E]; [|congruence]. rewrite E in Hn. destruct (key_lead k (canon l p)) as [A|[A|[A B]]]; [cbn [canon t_lead] in A; destruct (N.eq_dec l 0) as [->|Hz]; [congruence|destruct (Hl Hz); discriminate]|congruence|]. rewrite A in B. tauto.
  - exists h. split; [exact Hl|exact Hq].
  - exists h. split; [exact Hl|exact Hq].
Qed.
Lemma paired_no_mouse h r q : paired h (r :: q) -> no_mouse r. Proof. inversion 1; exact Logic.I. Qed.
(** a look at a record *)
Lemma peek_any r t : no_mouse r -> wf t -> t_count t = 0 -> let t' := snd (kpeek r t) in wf t' /\ t_count t' = 0 /\ t_pend t' = t_pend t /\ t_prev t' = t_prev t /\ st (t_lead t', t_prev t) r = st (t_lead t, t_prev t) r.
Proof.
  intros Hm Hw Hc. cbv zeta. destruct r as [k|m|ch|]; [|destruct Hm|cbn; auto|cbn; auto]. unfold peek_record. cbv zeta. cbn [snd].
  assert (E := eqv_input kn g acc lines (RKey k) _ _ (canon_eqv t Hw Hc)). destruct E as ((W1 & W2 & W3) & _ & E2 & E3 & E4). pose proof (key_prev k t) as P. pose proof (input_pend kn g acc lines (RKey k) t) as Q.
  assert (W : wf (set_count (t_count t) (pin (RKey k) t))) by (unfold wf; cbn [set_count t_buf t_head t_count]; rewrite Hc; split; [exact W1|]; split; [exact W2|lia]).
  destruct (t_lead t =? 0)%N eqn:El.
  - split; [exact W|]. split; [exact Hc|]. split; [exact Q|]. split; [exact P|]. cbn [set_count t_lead]. assert (Z : t_lead t = 0%N) by lia. rewrite E3, Z.
    assert (A : pin (RKey k) (canon (t_lead (pin (RKey k) (canon 0 (t_prev t)))) (t_prev t)) = pin (RKey k) (canon 0 (t_prev t))) by exact (act_again k _ (canon 0 (t_prev t)) (process_vals _ k) eq_refl).
    unfold step. cbn [fst snd process_record]. rewrite A. reflexivity.
  - split; [exact W|]. split; [exact Hc|]. split; [exact Q|]. split; [exact P|]. reflexivity.
Qed.
Lemma peek_drop r t h q : wf t -> t_count t = 0 -> half_ok (t_lead t) h -> paired h (r :: q) -> fst (fst (kpeek r t)) = false -> fst (st (t_lead t, t_prev t) r) = [] /\ snd (st (t_lead t, t_prev t) r) = (t_lead (snd (kpeek r t)), t_prev t).
Proof.
  intros Hw Hc Hl Hp Hr. pose proof (paired_no_mouse _ _ _ Hp) as Hm. destruct r as [k|m|ch|]; [|destruct Hm|discriminate|split; reflexivity]. unfold peek_record in *. cbv zeta in *. cbn [fst snd] in *.
  destruct (eqv_input kn g acc lines (RKey k) _ _ (canon_eqv t Hw Hc)) as (_ & W & E2 & E3 & E4). assert (Z : t_count (pin (RKey k) (canon (t_lead t) (t_prev t))) = 0) by (rewrite <- conts_length, <- E2, conts_length; lia).
  unfold step. cbn [fst snd process_record]. cbn [canon t_count]. rewrite filter_none by (fold (canon (t_lead t) (t_prev t)); lia). fold (canon (t_lead t) (t_prev t)). split; [apply conts_nil, Z|]. f_equal; [|rewrite key_prev; reflexivity].
  rewrite <- E3. destruct (N.eqb_spec (t_lead t) 0) as [El|El]; [reflexivity|]. cbn [set_lead t_lead]. destruct (Hl El) as [-> Hi]. inversion Hp as [|h0 k0 q0 Hu Hq|k0 q0 Hc0 Hq|k0 q0 Hd Hs Hq|k0 q0 Hc0 Hq|h0 c q0 Hq|h0 q0 Hq]; subst.
  - cbn [process_input]. rewrite up_none by exact Hu. reflexivity.
  - exfalso. destruct (second_sends k t Hw Hc Hi Hd Hs) as [A _]. cbv zeta in A. lia.
Qed.
Definition inv (s : tin * list record) : Prop :=
  let '(t, q) := s in exists l h, half_ok l h /\ paired h (t_pend t ++ q) /\ (t_lead t = l \/ exists r p, t_pend t = r :: p /\ st (t_lead t, t_prev t) r = st (l, t_prev t) r).
(** a record is processed *)
Lemma process_inv t r q l h : wf t -> t_count t = 0 -> half_ok l h -> paired h (r :: t_pend t ++ q) -> st (t_lead t, t_prev t) r = st (l, t_prev t) r -> inv (snd (prec r t), q).
Proof.
  intros Hw Hc Hl Hp E. destruct (step_of kn g acc lines ks r t Hw Hc) as (A & B & C). cbv zeta in *. destruct (step_inv l (t_prev t) r h _ Hl Hp) as (h' & H1 & H2). rewrite <- E, <- B in H1. cbn [fst snd] in H1. unfold inv. exists (t_lead (snd (prec r t))), h'. rewrite C. auto.
Qed.
Lemma loop_inv q : forall t, wf t -> t_count t = 0 -> t_pend t = [] -> inv (t, q) -> inv (console_loop kn g acc lines ks false false q t).
Proof.
  induction q as [|r q IH]; intros t Hw Hc Hp Hi; cbn [console_loop]; [exact Hi|]. destruct Hi as (l & h & H1 & H2 & H3). assert (El : t_lead t = l) by (destruct H3 as [H3|(r0 & p0 & H3 & _)]; [exact H3|congruence]). rewrite Hp in H2. cbn [app] in H2.
  destruct (step_of kn g acc lines ks r t Hw Hc) as (A & B & C). cbv zeta in *. assert (Hi : inv (snd (prec r t), q)) by (apply (process_inv t r q l h Hw Hc H1); [rewrite Hp; exact H2|rewrite El; reflexivity]).
  destruct (prec r t) as [ret t'] eqn:E. cbn [snd] in *. destruct ret; [exact Hi|]. apply IH; [exact A| |congruence|exact Hi].
  revert E. unfold process_record. destruct r as [k|m|ch|]; intro E; pose proof (f_equal fst E) as E1; pose proof (f_equal snd E) as E2; cbn [fst snd] in E1, E2; try (subst t'; lia); subst t'; exact Hc.
Qed.
Lemma loop_peek q : forall t, wf t -> t_count t = 0 -> t_pend t = [] -> inv (t, q) ->
  let s := console_loop kn g acc lines ks false true q t in wf (fst s) /\ ot s = ot (t, q) /\ inv s /\ measure s <= measure (t, q).
Proof.
  induction q as [|r q IH]; intros t Hw Hc Hp Hi; cbv zeta; cbn [console_loop]; [auto|]. pose proof Hi as (l & h & H1 & H2 & H3). assert (El : t_lead t = l) by (destruct H3 as [H3|(r0 & p0 & H3 & _)]; [exact H3|congruence]). subst l. rewrite Hp in H2. cbn [app] in H2.
  destruct (peek_any r t (paired_no_mouse _ _ _ H2) Hw Hc) as (A1 & A2 & A3 & A4 & A5). cbv zeta in *. pose proof (peek_drop r t h q Hw Hc H1 H2) as D. destruct (kpeek r t) as [[ret c] t'] eqn:E. cbn [fst snd] in *. destruct ret.
  - cbn [fst]. split; [exact A1|]. split.
    + unfold out. cbn [set_pend t_pend t_lead t_prev]. rewrite Hp. change (conts (set_pend [r] t')) with (conts t'). rewrite !conts_nil by assumption. cbn [app vis flat_map]. rewrite !outs_cons, A4, A5. reflexivity.
    + split; [|unfold measure; cbn [set_pend t_pend t_count]; rewrite Hp, A2; cbn [app length]; lia]. exists (t_lead t), h. split; [exact H1|]. split; [exact H2|]. right. exists r, []. cbn [set_pend t_pend t_lead t_prev]. rewrite A4. auto.
  - destruct (D eq_refl) as [D1 D2]. destruct (step_inv (t_lead t) (t_prev t) r h q H1 H2) as (h' & G1 & G2). rewrite D2 in G1. cbn [fst] in G1.
    assert (Hi' : inv (t', q)) by (exists (t_lead t'), h'; rewrite A3, Hp; auto). destruct (IH t' A1 A2 ltac:(congruence) Hi') as (B1 & B2 & B3 & B4). cbv zeta in *. split; [exact B1|]. split; [|split; [exact B3|]].
    + rewrite B2. unfold out. rewrite A3, Hp, !conts_nil by assumption. cbn [app vis flat_map]. rewrite outs_cons, D1, D2, A4. reflexivity.
    + revert B4. unfold measure. rewrite A3, Hp, A2, Hc. cbn [app length]. lia.
Qed.
Lemma call_inv o s : wf (fst s) -> inv s -> let r := cal o s in wf (fst (snd r)) /\ ot s = fst r ++ ot (snd r) /\ measure (snd r) <= measure s /\ inv (snd r).
Proof.
  intros Hw Hi. cbv zeta. destruct o as [| | |z].
  - destruct s as [t q]. cbn [call fst snd app] in *. unfold available, read_console. destruct (0 <? t_count t) eqn:Ec; [cbn [orb fst snd]; auto|]. cbn [orb]. destruct (t_pend t) as [|r p] eqn:Ep; [|cbn [fst snd]; auto].
    destruct (loop_peek q t Hw ltac:(lia) Ep Hi) as (A & B & C & D). cbv zeta in *. destruct (console_loop kn g acc lines ks false true q t) as [t' q']. cbn [fst snd] in *. auto.
  - destruct s as [t q]. cbn [call fst snd app] in *. unfold peek. destruct (0 <? t_count t) eqn:Ec; [cbn [fst snd]; auto|]. destruct (t_pend t) as [|r p] eqn:Ep; [cbn [fst snd]; auto|]. destruct Hi as (l & h & H1 & H2 & H3). rewrite Ep in H2. cbn [app] in H2.
    destruct (peek_any r t (paired_no_mouse _ _ _ H2) Hw ltac:(lia)) as (A1 & A2 & A3 & A4 & A5). cbv zeta in *. destruct (kpeek r t) as [[ret c] t'] eqn:E. cbn [fst snd] in *. split; [exact A1|]. split; [|split].
    + unfold out. rewrite A3, Ep, !conts_nil by (assumption || lia). cbn [app vis flat_map]. rewrite !outs_cons, A4, A5. reflexivity.
    + unfold measure. rewrite A2, A3, Ep. lia.
    + exists l, h. split; [exact H1|]. rewrite A3, Ep. split; [exact H2|]. right. exists r, p. split; [reflexivity|]. rewrite A4, A5. destruct H3 as [-> | (r0 & p0 & E0 & H3)]; [reflexivity|]. rewrite Ep in E0. injection E0 as <- <-. exact H3.
  - destruct (select_ok kn g acc lines ks s Hw) as (A1 & A2 & A3 & _). cbv zeta in *. split; [exact A1|]. split; [exact A2|]. split; [exact A3|]. destruct s as [t q]. cbn [call fst snd] in *. unfold select, read_console. destruct (0 <? t_count t) eqn:Ec; [exact Hi|]. destruct (t_pend t) as [|r p] eqn:Ep; [apply loop_inv; auto; lia|].
    destruct Hi as (l & h & H1 & H2 & H3). rewrite Ep in H2. apply (process_inv (set_pend p t) r q l h Hw); [cbn [set_pend t_count]; lia|exact H1|exact H2|]. cbn [set_pend t_lead t_prev]. destruct H3 as [-> | (r0 & p0 & E0 & H3)]; [reflexivity|]. rewrite Ep in E0. injection E0 as <- <-. exact H3.
  - destruct (read_ok kn g acc lines ks z s Hw) as (A1 & A2 & A3 & _). cbv zeta in *. split; [exact A1|]. split; [exact A2|]. split; [exact A3|]. destruct s as [t q]. cbn [call fst snd] in *. unfold read. destruct z; [exact Hi|]. cbv zeta.
    assert (P : forall t, wf t -> inv (t, q) -> inv (snd (let '(r, t) := (if 0 <? t_count t then let '(c, t) := pop t in (translate_special c, t) else (None_, t)) in (match r with Resize | None_ => [] | _ => [r] end, (t, q))))).
    { clear t Hw Hi A1 A2 A3. intros t Hw Hi. destruct (0 <? t_count t) eqn:Ec; [|exact Hi]. destruct (conts t) as [|c l] eqn:El; [pose proof (conts_length t) as L; rewrite El in L; cbn in L; lia|].
      destruct (pop_ok t c l Hw El) as (t' & Ep & Hw' & E1 & E2 & E3 & E4 & E5). rewrite Ep. cbn [snd]. destruct Hi as (l0 & h & H1 & H2 & H3). exists l0, h. rewrite E4, E2, E3. auto. }
    destruct (0 <? t_count t) eqn:Ec; [apply P; assumption|]. destruct (t_pend t) as [|r p] eqn:Ep; [apply P; assumption|]. apply P.
    + apply (step_of kn g acc lines ks r (set_pend p t) Hw). cbn [set_pend t_count]. lia.
    + destruct Hi as (l & h & H1 & H2 & H3). rewrite Ep in H2. apply (process_inv (set_pend p t) r q l h Hw); [cbn [set_pend t_count]; lia|exact H1|exact H2|]. cbn [set_pend t_lead t_prev]. destruct H3 as [-> | (r0 & p0 & E0 & H3)]; [reflexivity|]. rewrite Ep in E0. injection E0 as <- <-. exact H3.
Qed.
Lemma calls_out l : forall s, wf (fst s) -> inv s -> wf (fst (snd (cals l s))) /\ ot s = fst (cals l s) ++ ot (snd (cals l s)) /\ measure (snd (cals l s)) <= measure s.
Proof.
  induction l as [|o l IH]; intros s Hw Hi; [cbn; auto|]. rewrite calls_cons. cbn [fst snd]. destruct (call_inv o s Hw Hi) as (A & B & C & D). cbv zeta in *. destruct (IH _ A D) as (E & F & G). split; [exact E|]. split; [rewrite B, F at 1; apply app_assoc|lia].
Qed.
End P.
