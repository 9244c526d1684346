(** Typed text and keys are read as they were sent. *)
From Coq Require Import Ascii String.
From Verif Require Import Base UtfSpec UtfModel KbSpec KbBuf KbKeys KbQueue KbPeek.
Open Scope N_scope.

Section X.
Variable kn : N -> N -> option N.
Variable g : settings.
Variable acc : mtype -> bool.
Variable lines : Z.
Variable ks : option keys.
Hypothesis Hks : harmless ks.
Notation pin := (process_input kn g acc lines false).
Notation st := (step kn g acc lines ks).
Lemma filter_id n t : filter_unbound_input ks n t = t.
Proof. unfold filter_unbound_input. destruct ks as [k|]; [|reflexivity]. destruct (_ <=? _)%nat; [reflexivity|]. cbv zeta. match goal with |- context [ks_translate k ?c] => destruct (Hks c) as [-> ->] end. reflexivity. Qed.
Lemma step_key l p k : st (l, p) (RKey k) = let t := pin (RKey k) (canon l p) in (conts t, (t_lead t, p)).
Proof. unfold step. cbn [fst snd process_record]. rewrite filter_id. rewrite key_prev. reflexivity. Qed.
(** ** Records *)
Lemma step_item p r : g_raw_esc g = false -> item g r -> st (0, p) r = (sent_by kn g acc lines p r, (0, prev_after p r)) /\ Forall code_byte (sent_by kn g acc lines p r).
Proof.
  intros Hg Hi. rewrite sent_by_act by assumption. pose proof (record_good kn g acc lines p r Hg Hi) as Ha. split; [|apply act_code, Ha]. destruct (act_good_ok _ Ha) as [Ho _]. destruct r as [k|m|ch|]; cbn [record_act prev_after] in *; try reflexivity.
  - rewrite step_key. cbv zeta. cbn [process_input canon t_count]. change (0 =? 0)%nat with true. destruct (apply_act_ok _ (canon 0 p) (canon_wf 0 p) Ho eq_refl eq_refl) as (_ & A & B & _). unfold canon in A, B |- *. rewrite A, B. reflexivity.
  - unfold step. cbn [fst snd process_record process_input canon t_prev t_buf t_head t_count t_lead t_pend]. destruct (apply_act_ok _ (canon 0 (ms_left m, ms_right m)) (canon_wf _ _) Ho eq_refl eq_refl) as (_ & A & B & C & _). unfold canon in A, B, C |- *. rewrite A, B, C. reflexivity.
Qed.
Lemma vis_code l : Forall code_byte l -> vis l = map as_read l.
Proof.
  induction 1 as [|b l H Hl IH]; [reflexivity|]. rewrite vis_cons, IH. cbn [map]. unfold translate_special, as_read, input_none_byte, input_abort_byte, input_exit_byte. unfold code_byte in H. replace (b =? 254) with false by lia. replace (b =? 255) with false by lia. destruct (b =? 253); reflexivity.
Qed.
Lemma outs_items q : g_raw_esc g = false -> Forall (item g) q -> forall p, outs kn g acc lines ks (0, p) q = map as_read (concat (sents kn g acc lines p q)).
Proof.
  intros Hg H. induction H as [|r q Hr Hq IH]; intro p; [reflexivity|]. rewrite outs_cons. destruct (step_item p r Hg Hr) as [A B]. rewrite A. cbn [fst snd sents concat]. rewrite map_app, IH, (vis_code _ B). reflexivity.
Qed.
(** ** Text *)
Lemma text_act u k : text_key g u k -> 32 <= u -> u <> 127 -> process_key kn g false true k = AVals [u] \/ (u = 32 /\ process_key kn g false true k = ASeq [32]).
Proof.
  intros (Hd & Hc & H) H1 H2. destruct H as [[Hv Hf]|(Hv & Hu & Hf)].
  2:{ right. split; [exact Hu|]. destruct k as [d c vk sc f]. cbn [k_down k_char k_vk k_sc k_flags which snd] in *. subst. injection Hf as F1 F2 F3. unfold process_key. cbn [k_down k_char k_vk k_sc k_flags]. change (VK_SPACE =? VK_MENU) with false. change ((VK_SPACE =? VK_CONTROL) || (VK_SPACE =? VK_SHIFT) || (VK_SPACE =? VK_LWIN) || (VK_SPACE =? VK_RWIN)) with false. change (32 =? 27) with false. cbn [negb andb orb].
      assert (A : f_lalt f = false) by (unfold alt in F3; apply orb_false_elim in F3; tauto). unfold altgr_sub. rewrite A. cbn [andb]. change ((VK_SPACE =? VK_TAB) && ((32 =? 9) || (32 =? 0)) && true) with false. change ((VK_SPACE =? VK_SPACE) && ((32 =? 32) || (32 =? 0)) && true) with true. cbv iota. unfold seq_at, keymod_index, bit. rewrite F1, F2, F3. reflexivity. }
  left. unfold process_key. cbv zeta. rewrite Hd, Hc. cbn [negb andb]. unfold text_vk in Hv.
  replace (k_vk k =? VK_MENU) with false by (unfold VK_MENU; lia). replace ((k_vk k =? VK_CONTROL) || (k_vk k =? VK_SHIFT) || (k_vk k =? VK_LWIN) || (k_vk k =? VK_RWIN)) with false by (unfold VK_CONTROL, VK_SHIFT, VK_LWIN, VK_RWIN; lia). replace (u =? 27) with false by lia. cbn [andb].
  assert (S : exists f, altgr_sub g u (k_flags k) = (u, f) /\ (ctrl f = true \/ (ctrl f = false /\ alt f = false))).
  { unfold altgr_sub. destruct Hf as [[F1 F2]|[F1 F2]].
    - exists (k_flags k). assert (A : f_lalt (k_flags k) = false) by (unfold alt in F2; apply orb_false_elim in F2; tauto). rewrite A. cbn [andb]. auto.
    - destruct (f_ralt (k_flags k)) eqn:Er; [rewrite andb_false_r; eauto|]. destruct F2 as [F2|[F2 F3]]; [discriminate|]. rewrite F3, F1, F2. cbn [andb negb]. rewrite andb_false_r. replace (u =? 0) with false by lia. cbn [negb]. eexists. split; [reflexivity|]. left. exact F1. }
  destruct S as (f & -> & Hf'). replace (k_vk k =? VK_TAB) with false by (unfold VK_TAB; lia). replace (k_vk k =? VK_SPACE) with false by (unfold VK_SPACE; lia). replace (k_vk k =? VK_RETURN) with false by (unfold VK_RETURN; lia). cbn [andb].
  set (f' := if (31 <? u) && negb (u =? 127) && ctrl f then mkF (f_shift f) false false false false (f_other f) else f). assert (F : ctrl f' = false /\ alt f' = false). { unfold f'. replace ((31 <? u) && negb (u =? 127)) with true by lia. cbn [andb]. destruct (ctrl f) eqn:E; [split; reflexivity|]. destruct Hf' as [Hf'|Hf']; [discriminate|]. rewrite E. tauto. }
  clearbody f'. destruct F as [F1 F2]. replace (u =? 9) with false by lia. cbn [andb]. replace ((VK_F1 <=? k_vk k) && (k_vk k <=? VK_F12)) with false by (unfold VK_F1, VK_F12; lia). rewrite F2, !andb_false_r. replace (u =? 0) with false by lia.
  assert (S : simple_char g u (k_vk k) f' = true). { unfold simple_char. rewrite F1. cbn [negb orb]. replace (u =? 27) with false by lia. cbn [andb]. replace ((k_vk k =? VK_RETURN) || (k_vk k =? VK_BACK)) with false by (unfold VK_RETURN, VK_BACK; lia). destruct (_ || _); [reflexivity|]. destruct (_ =? _); reflexivity. }
  rewrite S. cbn [negb andb]. unfold with_alt. rewrite F2. reflexivity.
Qed.
Lemma silent_step l p r : silent r -> st (l, p) r = ([], (l, p)).
Proof. destruct r as [k|m|ch|]; cbn [silent]; intro H; [|destruct H|reflexivity|reflexivity]. rewrite step_key. cbn [process_input]. rewrite up_none by exact H. reflexivity. Qed.
Lemma text_step u k p : text_key g u k -> 32 <= u < 65536 -> u <> 127 -> ~ half u -> st (0, p) (RKey k) = (utf8 u, (0, p)).
Proof.
  intros Hk Hu Hn Hh. rewrite step_key. cbv zeta. cbn [process_input canon t_count]. change (0 =? 0)%nat with true. fold (canon 0 p).
  assert (Z : forall a, act_ok a -> (conts (apply_act a (canon 0 p)), (t_lead (apply_act a (canon 0 p)), p)) = (act_bytes a, (0, p))) by (intros a Ha; destruct (apply_act_ok a (canon 0 p) (canon_wf 0 p) Ha eq_refl eq_refl) as (_ & A & B & _); rewrite A, B; reflexivity).
  destruct (text_act u k Hk ltac:(lia) Hn) as [-> | [-> ->]].
  - rewrite Z; [cbn [act_bytes flat_map]; rewrite app_nil_r; reflexivity|]. split; [cbn [act_bytes flat_map]; rewrite app_nil_r; pose proof (utf8_len u); unfold size; lia|apply Forall_cons; [split; [lia|exact Hh]|apply Forall_nil]].
  - rewrite Z; [reflexivity|]. split; [cbn; unfold size; lia|apply Forall_cons; [discriminate|apply Forall_nil]].
Qed.
Lemma first_step u k p : text_key g u k -> is_lead u -> st (0, p) (RKey k) = ([], (u, p)).
Proof.
  intros Hk Hu. unfold is_lead in Hu. rewrite step_key. cbv zeta. cbn [process_input canon t_count]. change (0 =? 0)%nat with true. fold (canon 0 p). destruct (text_act u k Hk ltac:(lia) ltac:(lia)) as [-> | [-> _]]; [|lia]. cbn [apply_act]. unfold push_vals. cbn [fold_left]. unfold push_val. replace (u <? 128) with false by lia. unfold is_lead_surrogate. replace ((55296 <=? u) && (u <=? 56319)) with true by lia. reflexivity.
Qed.
Lemma second_step l u v k p : text_key g u k -> 65536 <= v < 1114112 -> utf16 v = [l; u] -> st (l, p) (RKey k) = (utf8 v, (0, p)).
Proof.
  intros Hk Hv He. assert (R : 55296 <= l < 56320 /\ 56320 <= u < 57344). { unfold utf16 in He. replace (v <? 65536) with false in He by lia. assert (E1 : l = 55296 + (v - 65536) / 1024) by congruence. assert (E2 : u = 56320 + (v - 65536) mod 1024) by congruence. clear - E1 E2 Hv. assert (D : (v - 65536) / 1024 < 1024) by (apply N.div_lt_upper_bound; lia). assert (M : (v - 65536) mod 1024 < 1024) by (apply N.mod_lt; discriminate). set (x := (v - 65536) / 1024) in *. set (y := (v - 65536) mod 1024) in *. clearbody x y. lia. } destruct R as [Rl Ru].
  rewrite step_key. cbv zeta. cbn [process_input canon t_count]. change (0 =? 0)%nat with true. fold (canon l p). destruct (text_act u k Hk ltac:(lia) ltac:(lia)) as [-> | [-> _]]; [|lia]. cbn [apply_act]. unfold push_vals. cbn [fold_left]. unfold push_val. replace (u <? 128) with false by lia. unfold is_lead_surrogate. replace ((55296 <=? u) && (u <=? 56319)) with false by lia. cbn [canon t_lead]. replace (l =? 0) with false by lia. rewrite N.mod_small by lia. rewrite <- He, utf8_scalar by (unfold scalar; lia). fold (canon l p).
  destruct (push_bytes_conts (utf8 v) (set_lead 0 (canon l p))) as [A _]; [apply canon_wf|cbn [set_lead canon t_count]; pose proof (utf8_len v); unfold size; lia|]. rewrite A. rewrite (proj1 (push_bytes_rest (utf8 v) (set_lead 0 (canon l p)))). reflexivity.
Qed.
Lemma vis_utf8 v : scalar v -> vis (utf8 v) = map Byte (utf8 v).
Proof.
  intro H. assert (B : Forall (fun b => b < 250) (utf8 v)). { unfold scalar in H. unfold utf8. repeat match goal with |- context [if ?b then _ else _] => destruct b eqn:? end; repeat apply Forall_cons; try apply Forall_nil; lia. }
  induction B as [|b l Hb Hl IH]; [reflexivity|]. rewrite vis_cons, IH. cbn [map]. unfold translate_special, input_none_byte, input_abort_byte, input_exit_byte. replace (b =? 254) with false by lia. replace (b =? 255) with false by lia. replace (b =? 253) with false by lia. reflexivity.
Qed.
Lemma text_outs us q p : types g us q ->
  (forall text, us = flat_map utf16 text -> Forall printable text -> outs kn g acc lines ks (0, p) q = map Byte (flat_map utf8 text)) /\
  (forall l u v text, us = u :: flat_map utf16 text -> 65536 <= v < 1114112 -> utf16 v = [l; u] -> Forall printable text -> outs kn g acc lines ks (l, p) q = map Byte (utf8 v ++ flat_map utf8 text)).
Proof.
  induction 1 as [|r us q Hr Ht [IH1 IH2]|u us k q Hk Ht [IH1 IH2]].
  - split.
    + intros [|v text] E Hp; [reflexivity|]. cbn [flat_map] in E. unfold utf16 in E. destruct (v <? 65536); discriminate.
    + intros l u v text E. discriminate.
  - split.
    + intros text E Hp. rewrite outs_cons, silent_step by exact Hr. cbn [fst snd vis flat_map app]. auto.
    + intros l u v text E Hv He Hp. rewrite outs_cons, silent_step by exact Hr. cbn [fst snd vis flat_map app]. eauto.
  - split.
    + intros [|v text] E Hp; [discriminate|]. inversion Hp as [|? ? (Hs & H1 & H2) Hp']; subst. cbn [flat_map] in E |- *. destruct (N.ltb_spec v 65536) as [Hl|Hl].
      * assert (E16 : utf16 v = [v]) by (unfold utf16; replace (v <? 65536) with true by lia; reflexivity). rewrite E16 in E. cbn [app] in E. injection E as -> ->. rewrite outs_cons, (text_step v k p Hk) by (unfold half, scalar in *; lia). cbn [fst snd]. rewrite map_app, (IH1 text eq_refl Hp'). f_equal. apply vis_utf8, Hs.
      * assert (E16 : utf16 v = [55296 + (v - 65536) / 1024; 56320 + (v - 65536) mod 1024]) by (unfold utf16; replace (v <? 65536) with false by lia; reflexivity). rewrite E16 in E. cbn [app] in E. assert (Eu : u = 55296 + (v - 65536) / 1024) by congruence. assert (Eus : us = (56320 + (v - 65536) mod 1024) :: flat_map utf16 text) by congruence. assert (Hv : v < 1114112) by (unfold scalar in Hs; lia). rewrite outs_cons, (first_step u k p Hk) by (unfold is_lead; lia). cbn [fst snd vis flat_map app]. apply (IH2 u (56320 + (v - 65536) mod 1024) v text); [exact Eus|lia|rewrite E16, Eu; reflexivity|exact Hp'].
    + intros l u' v text E Hv He Hp. injection E as <- ->. rewrite outs_cons, (second_step l u v k p Hk Hv He). cbn [fst snd]. rewrite map_app, (IH1 text eq_refl Hp). f_equal. apply vis_utf8. unfold scalar. lia.
Qed.
End X.
