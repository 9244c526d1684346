(** The buffer is a queue. *)
From Coq Require Import Ascii String.
From Verif Require Import Base UtfSpec UtfModel UtfProofs UtfProperties KbSpec.
Open Scope nat_scope.

Definition wf (t : tin) : Prop := length (t_buf t) = size /\ t_head t < size /\ t_count t <= size.
Definition conts (t : tin) : bytes := map (fun i => nth ((t_head t + i) mod size) (t_buf t) 0%N) (seq 0 (t_count t)).
Lemma set_nth_len i v l : i < length l -> length (set_nth i v l) = length l.
Proof. intro H. unfold set_nth. rewrite app_length. cbn [length]. rewrite firstn_length, skipn_length. lia. Qed.
Lemma set_nth_get i j v l : i < length l -> nth j (set_nth i v l) 0%N = if j =? i then v else nth j l 0%N.
Proof.
  intro H. unfold set_nth. destruct (Nat.eqb_spec j i) as [->|Hn].
  - rewrite app_nth2 by (rewrite firstn_length; lia). rewrite firstn_length, Nat.min_l by lia. rewrite Nat.sub_diag. reflexivity.
  - destruct (Nat.lt_ge_cases j i) as [Hl|Hg].
    + rewrite app_nth1 by (rewrite firstn_length; lia). rewrite <- (firstn_skipn i l) at 2. rewrite app_nth1 by (rewrite firstn_length; lia). reflexivity.
    + rewrite app_nth2 by (rewrite firstn_length; lia). rewrite firstn_length, Nat.min_l by lia. destruct (j - i) as [|d] eqn:E; [lia|]. cbn [nth]. rewrite <- (firstn_skipn (S i) l) at 2. rewrite app_nth2 by (rewrite firstn_length; lia). rewrite firstn_length, Nat.min_l by lia. f_equal. lia.
Qed.
Lemma push_byte_wf b t : wf t -> wf (push_byte b t).
Proof. intros (H1 & H2 & H3). unfold push_byte, wf. destruct (t_count t <? size) eqn:E; [|tauto]. cbn [t_buf t_head t_count]. rewrite set_nth_len by (rewrite H1; apply Nat.mod_upper_bound; discriminate). split; [exact H1|]. split; [exact H2|lia]. Qed.
Lemma push_byte_conts b t : wf t -> t_count t < size -> conts (push_byte b t) = conts t ++ [b].
Proof.
  intros (H1 & H2 & H3) Hc. unfold push_byte. replace (t_count t <? size) with true by lia. unfold conts. cbn [t_buf t_head t_count]. rewrite seq_S, map_app. cbn [map]. f_equal.
  - apply map_ext_in. intros i Hi. apply in_seq in Hi. rewrite set_nth_get by (rewrite H1; apply Nat.mod_upper_bound; discriminate). unfold size in *. replace ((t_head t + i) mod 16 =? (t_head t + t_count t) mod 16) with false by lia. reflexivity.
  - rewrite set_nth_get by (rewrite H1; apply Nat.mod_upper_bound; discriminate). rewrite Nat.eqb_refl. reflexivity.
Qed.
Lemma push_byte_count b t : t_count t < size -> t_count (push_byte b t) = S (t_count t).
Proof. intro H. unfold push_byte. replace (t_count t <? size) with true by lia. reflexivity. Qed.
Lemma push_byte_rest b t : t_lead (push_byte b t) = t_lead t /\ t_prev (push_byte b t) = t_prev t /\ t_pend (push_byte b t) = t_pend t /\ t_head (push_byte b t) = t_head t.
Proof. unfold push_byte. destruct (t_count t <? size); auto. Qed.
Lemma push_bytes_rest l : forall t, t_lead (push_bytes l t) = t_lead t /\ t_prev (push_bytes l t) = t_prev t /\ t_pend (push_bytes l t) = t_pend t /\ t_head (push_bytes l t) = t_head t.
Proof. induction l as [|b l IH]; intro t; [auto|]. unfold push_bytes in *. cbn [fold_left]. destruct (IH (push_byte b t)) as (A & B & C & D). destruct (push_byte_rest b t) as (A' & B' & C' & D'). repeat split; congruence. Qed.
Lemma push_bytes_wf l : forall t, wf t -> wf (push_bytes l t).
Proof. induction l as [|b l IH]; intros t H; [exact H|]. unfold push_bytes in *. cbn [fold_left]. apply IH, push_byte_wf, H. Qed.
Lemma push_bytes_conts l : forall t, wf t -> t_count t + length l <= size -> conts (push_bytes l t) = conts t ++ l /\ t_count (push_bytes l t) = t_count t + length l.
Proof.
  induction l as [|b l IH]; intros t H Hl; [cbn; rewrite app_nil_r, Nat.add_0_r; auto|]. cbn [length] in Hl. unfold push_bytes in *. cbn [fold_left]. destruct (IH (push_byte b t)) as [A B]; [apply push_byte_wf, H|rewrite push_byte_count; lia|]. rewrite A, B, push_byte_conts, push_byte_count by (assumption || lia). rewrite <- app_assoc. cbn [length app]. split; [reflexivity|lia].
Qed.
Lemma conts_length t : length (conts t) = t_count t.
Proof. unfold conts. rewrite map_length, seq_length. reflexivity. Qed.
Lemma pop_ok t c l : wf t -> conts t = c :: l -> exists t', pop t = (c, t') /\ wf t' /\ conts t' = l /\ t_lead t' = t_lead t /\ t_prev t' = t_prev t /\ t_pend t' = t_pend t /\ t_count t = S (t_count t').
Proof.
  intros (H1 & H2 & H3) E. pose proof (conts_length t) as L. rewrite E in L. cbn [length] in L. unfold pop. destruct (t_count t) as [|n] eqn:Ec; [discriminate|]. unfold conts in E. rewrite Ec in E. cbn [seq map] in E. rewrite Nat.add_0_r, Nat.mod_small in E by exact H2. injection E as E1 E2. rewrite E1. eexists. split; [reflexivity|]. cbn [t_lead t_prev t_pend t_count]. unfold wf. cbn [t_buf t_head t_count].
  split; [split; [exact H1|split; [apply Nat.mod_upper_bound; discriminate|lia]]|]. split; [|auto]. unfold conts. cbn [t_buf t_head t_count]. rewrite <- E2, <- seq_shift, map_map. apply map_ext. intro i. rewrite Nat.add_mod_idemp_l by discriminate. replace (t_head t + 1 + i) with (t_head t + S i) by lia. reflexivity.
Qed.
Lemma contents_ok t : wf t -> contents t = conts t.
Proof.
  unfold contents. remember (t_count t) as n eqn:En. revert t En. induction n as [|n IH]; intros t En H; [unfold conts; rewrite <- En; reflexivity|].
  destruct (conts t) as [|c l] eqn:E; [pose proof (conts_length t) as L; rewrite E in L; cbn in L; lia|]. destruct (pop_ok t c l H E) as (t' & Ep & Hw & Ec & _ & _ & _ & Hn). cbn [pops]. rewrite Ep. f_equal. rewrite IH; [exact Ec|lia|exact Hw].
Qed.

(** ** UTF-8 of one or two units *)
Lemma utf8_full wc : Forall (fun u => (0 < u < 65536)%N) wc -> length (full dl16 split8 256 wc) < 16 -> utf8_of wc = full dl16 split8 256 wc.
Proof.
  intros H Hl. unfold utf8_of. destruct (to8_target (wc ++ [0%N]) None 0 wc (repeat 0%N 16) 16) as (p & E & _).
  - eapply Forall_impl; [|exact H]. cbv beta. intros. lia.
  - exists [], [0%N]. split; [reflexivity|]. split; [reflexivity|]. split; [eapply Forall_impl; [|exact H]; cbv beta; intros; lia|]. right. split; [reflexivity|exact Logic.I].
  - rewrite repeat_length. lia.
  - rewrite E. unfold target. set (f := full dl16 split8 256 wc) in *. rewrite Nat.min_l by lia. rewrite (firstn_all2 f) by lia. rewrite firstn_app, firstn_all, Nat.sub_diag, firstn_O, app_nil_r. reflexivity.
Qed.
Lemma utf8_len v : length (utf8 v) <= 4.
Proof. unfold utf8. repeat match goal with |- context [if ?b then _ else _] => destruct b end; cbn; lia. Qed.
Lemma utf8_scalar v : scalar v -> utf8_of (utf16 v) = utf8 v.
Proof.
  intro H. pose proof (full8_utf16 [v] (Forall_cons _ H (Forall_nil _))) as E. cbn [flat_map] in E. rewrite !app_nil_r in E. rewrite utf8_full; [exact E| |rewrite E; pose proof (utf8_len v); lia].
  unfold scalar in H. unfold utf16. destruct (N.ltb_spec v 65536); repeat apply Forall_cons; try apply Forall_nil; lia.
Qed.
Lemma push_val_ascii v t : (v < 128)%N -> push_val v t = push_byte v (set_lead 0 t).
Proof. intro H. unfold push_val. replace (v <? 128)%N with true by lia. reflexivity. Qed.
Lemma push_val_unit v t : (128 <= v < 65536)%N -> ~ half v -> t_lead t = 0%N -> push_val v t = push_bytes (utf8 v) (set_lead 0 t).
Proof.
  intros H Hh Hl. unfold push_val, half in *. replace (v <? 128)%N with false by lia. unfold is_lead_surrogate. replace ((55296 <=? v) && (v <=? 56319))%N with false by lia. rewrite Hl. cbn [N.eqb]. rewrite N.mod_small by lia. f_equal. rewrite <- (utf8_scalar v) by (unfold scalar; lia). unfold utf16. replace (v <? 65536)%N with true by lia. reflexivity.
Qed.
Lemma utf8_ascii v : (v < 128)%N -> utf8 v = [v]. Proof. intro H. unfold utf8. replace (v <? 128)%N with true by lia. reflexivity. Qed.
Lemma push_val_any v t : (v < 65536)%N -> ~ half v -> t_lead t = 0%N -> push_val v t = push_bytes (utf8 v) (set_lead 0 t).
Proof. intros H Hh Hl. destruct (N.lt_ge_cases v 128) as [Hv|Hv]; [rewrite push_val_ascii, utf8_ascii by exact Hv; reflexivity|apply push_val_unit; auto]. Qed.
Lemma lead_wf v t : wf t -> wf (set_lead v t). Proof. exact (fun H => H). Qed.

(** ** What an action sends *)
Definition act_bytes (a : act) : bytes := match a with ANone => [] | ASeq s => s | AVals l => flat_map utf8 l | AExit => [253%N] end.
Definition act_ok (a : act) : Prop :=
  length (act_bytes a) <= size /\ match a with ASeq s => Forall (fun b => (b <> 0)%N) s | AVals l => Forall (fun v => (v < 65536)%N /\ ~ half v) l | _ => True end.
Lemma cut_nul_ok s : Forall (fun b => (b <> 0)%N) s -> cut_nul s = s.
Proof. induction 1 as [|c s H Hs IH]; [reflexivity|]. cbn [cut_nul]. replace (c =? 0)%N with false by lia. rewrite IH. reflexivity. Qed.
Lemma push_vals_ok l : forall t, wf t -> Forall (fun v => (v < 65536)%N /\ ~ half v) l -> t_lead t = 0%N -> t_count t + length (flat_map utf8 l) <= size ->
  wf (push_vals l t) /\ conts (push_vals l t) = conts t ++ flat_map utf8 l /\ t_lead (push_vals l t) = 0%N /\ t_prev (push_vals l t) = t_prev t /\ t_pend (push_vals l t) = t_pend t.
Proof.
  induction l as [|v l IH]; intros t Hw Hl Ht Hs; [cbn; rewrite app_nil_r; auto|]. inversion Hl as [|? ? [Hv Hh] Hl']; subst. cbn [flat_map] in *. rewrite app_length in Hs. unfold push_vals in *. cbn [fold_left]. rewrite push_val_any by assumption.
  destruct (push_bytes_conts (utf8 v) (set_lead 0 t)) as [A B]; [exact Hw|cbn [t_count set_lead]; lia|]. destruct (push_bytes_rest (utf8 v) (set_lead 0 t)) as (C1 & C2 & C3 & C4). cbn [set_lead t_count t_lead t_prev t_pend] in *.
  destruct (IH (push_bytes (utf8 v) (set_lead 0 t))) as (D1 & D2 & D3 & D4 & D5); [apply push_bytes_wf, lead_wf, Hw|exact Hl'|exact C1|rewrite B; lia|]. split; [exact D1|]. rewrite D2, A, <- app_assoc. split; [reflexivity|]. split; [exact D3|]. split; congruence.
Qed.
Lemma apply_act_ok a t : wf t -> act_ok a -> t_count t = 0 -> t_lead t = 0%N -> wf (apply_act a t) /\ conts (apply_act a t) = act_bytes a /\ t_lead (apply_act a t) = 0%N /\ t_prev (apply_act a t) = t_prev t /\ t_pend (apply_act a t) = t_pend t.
Proof.
  intros Hw [Hs Ha] Hc Hl. assert (E0 : conts t = []) by (unfold conts; rewrite Hc; reflexivity). destruct a as [|s|l|]; cbn [apply_act act_bytes] in *.
  - auto.
  - unfold push_seq. rewrite cut_nul_ok by exact Ha. destruct (push_bytes_conts s (set_lead 0 t)) as [A B]; [exact Hw|cbn [set_lead t_count]; lia|]. destruct (push_bytes_rest s (set_lead 0 t)) as (C1 & C2 & C3 & C4). split; [apply push_bytes_wf, Hw|]. rewrite A. cbn [set_lead t_lead t_prev t_pend] in *. change (conts (set_lead 0 t)) with (conts t). rewrite E0. auto.
  - destruct (push_vals_ok l t Hw Ha Hl) as (D1 & D2 & D3 & D4 & D5); [lia|]. rewrite D2, E0. auto.
  - destruct Hw as (H1 & H2 & H3). unfold wf, conts. cbn [t_buf t_head t_count t_lead t_prev t_pend]. rewrite set_nth_len by (rewrite H1; unfold size; lia). split; [unfold size in *; auto with arith|]. cbn [seq map]. rewrite set_nth_get by (rewrite H1; unfold size; lia). split; [reflexivity|auto].
Qed.
