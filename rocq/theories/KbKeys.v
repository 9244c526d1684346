(** Where a key's bytes end. *)
From Coq Require Import Ascii String.
From Verif Require Import Base UtfSpec KbSpec KbBuf.
Open Scope N_scope.

Fixpoint csi_end (l : bytes) : option bytes := match l with [] => None | c :: l' => if (48 <=? c) && (c <=? 59) then csi_end l' else Some l' end.
Definition char_end (l : bytes) : option bytes :=
  match l with
  | [] => None
  | c :: l' => if (c <? 192) || (248 <=? c) then Some l' else if c <? 224 then Some (skipn 1 l') else if c <? 240 then Some (skipn 2 l') else Some (skipn 3 l')
  end.
Definition esc_end (l : bytes) : option bytes :=
  match l with
  | [] => None
  | c :: l' => if c =? 79 then match l' with _ :: t => Some t | [] => None end else if c =? 91 then match l' with d :: t => if d =? 36 then csi_end t else csi_end l' | [] => None end else char_end l
  end.
Definition take_key (l : bytes) : option bytes :=
  match l with
  | [] => None
  | c :: l' => if c =? 27 then match l' with d :: t => if d =? 27 then esc_end t else esc_end l' | [] => None end else char_end l
  end.
Definition whole (s : bytes) : Prop := forall t, take_key (s ++ t) = Some t.
Lemma whole_prefix a b t : whole a -> whole b -> b = a ++ t -> t = [].
Proof. intros Ha Hb ->. specialize (Hb []). rewrite app_nil_r in Hb. rewrite (Ha t) in Hb. congruence. Qed.
Lemma utf8_char_end v t : v < 65536 -> char_end (utf8 v ++ t) = Some t.
Proof.
  intro H. unfold utf8. destruct (N.ltb_spec v 128); [cbn [app char_end]; replace ((v <? 192) || (248 <=? v)) with true by lia; reflexivity|].
  destruct (N.ltb_spec v 2048); [cbn [app char_end]; replace ((192 + v / 64 <? 192) || (248 <=? 192 + v / 64)) with false by lia; replace (192 + v / 64 <? 224) with true by lia; reflexivity|].
  replace (v <? 65536) with true by lia. cbn [app char_end]. replace ((224 + v / 4096 <? 192) || (248 <=? 224 + v / 4096)) with false by lia. replace (224 + v / 4096 <? 224) with false by lia. replace (224 + v / 4096 <? 240) with true by lia. reflexivity.
Qed.
Lemma utf8_head v : v < 65536 -> exists b r, utf8 v = b :: r /\ (b = v /\ r = [] \/ 192 <= b < 240).
Proof. intro H. unfold utf8. destruct (N.ltb_spec v 128); [eauto 6|]. destruct (N.ltb_spec v 2048); [eexists _, _; split; [reflexivity|lia]|]. replace (v <? 65536) with true by lia. eexists _, _; split; [reflexivity|lia]. Qed.
Lemma whole_char v : v < 65536 -> v <> 27 -> whole (utf8 v).
Proof. intros H Hn t. destruct (utf8_head v H) as (b & r & E & Hb). pose proof (utf8_char_end v t H) as X. rewrite E in *. cbn [app take_key] in *. replace (b =? 27) with false by (destruct Hb as [[-> _]|Hb]; lia). exact X. Qed.
Lemma whole_alt v : v < 65536 -> v <> 27 -> v <> 79 -> v <> 91 -> whole (27 :: utf8 v).
Proof.
  intros H H1 H2 H3 t. destruct (utf8_head v H) as (b & r & E & Hb). pose proof (utf8_char_end v t H) as X. rewrite E in *. cbn [app take_key] in *. change (27 =? 27) with true. cbv iota. replace (b =? 27) with false by (destruct Hb as [[-> _]|Hb]; lia). cbn [esc_end]. replace (b =? 79) with false by (destruct Hb as [[-> _]|Hb]; lia). replace (b =? 91) with false by (destruct Hb as [[-> _]|Hb]; lia). exact X.
Qed.

(** ** The tables *)
Definition seq_ok (s : bytes) : Prop := (s = [] \/ whole s) /\ (length s <= size)%nat /\ Forall (fun b => 0 < b < 128) s.
Definition nonzero (s : bytes) : bool := forallb (fun b => (0 <? b) && (b <? 128)) s.
Definition seq_okb (s : bytes) : bool := match s with [] => true | _ => match take_key s with Some [] => true | _ => false end end && (length s <=? size)%nat && nonzero s.
Lemma csi_end_app t s : forall r, csi_end s = Some r -> csi_end (s ++ t) = Some (r ++ t).
Proof. induction s as [|c s IH]; intros r H; [discriminate|]. cbn [app csi_end] in *. destruct ((48 <=? c) && (c <=? 59)); [exact (IH r H)|congruence]. Qed.
Lemma skip_app n (s t : bytes) : (n <= length s)%nat -> skipn n (s ++ t) = skipn n s ++ t.
Proof. intro H. rewrite skipn_app. replace (n - length s)%nat with O by lia. reflexivity. Qed.
Definition char_in (s : bytes) : bool := match s with [] => true | c :: r => let n := length r in if (c <? 192) || (248 <=? c) then true else if c <? 224 then (1 <=? n)%nat else if c <? 240 then (2 <=? n)%nat else (3 <=? n)%nat end.
Lemma char_end_app t s r : char_in s = true -> char_end s = Some r -> char_end (s ++ t) = Some (r ++ t).
Proof.
  intros Hi H. destruct s as [|c s]; [discriminate|]. cbn [app char_end char_in] in *. cbv zeta in Hi.
  destruct ((c <? 192) || (248 <=? c)); [congruence|]. destruct (c <? 224); [injection H as <-; rewrite skip_app by lia; reflexivity|]. destruct (c <? 240); injection H as <-; rewrite skip_app by lia; reflexivity.
Qed.
Definition tails_in (s : bytes) : bool := char_in s && char_in (skipn 1 s) && char_in (skipn 2 s).
Lemma esc_end_app t s r : char_in s = true -> esc_end s = Some r -> esc_end (s ++ t) = Some (r ++ t).
Proof.
  intros Hi H. destruct s as [|c s]; [discriminate|]. cbn [app esc_end] in *. destruct (c =? 79); [destruct s; [discriminate|]; cbn [app]; congruence|]. destruct (c =? 91); [|apply (char_end_app t (c :: s) r Hi H)].
  destruct s as [|d s]; [discriminate|]. cbn [app]. destruct (d =? 36); [exact (csi_end_app t s r H)|exact (csi_end_app t (d :: s) r H)].
Qed.
Lemma take_key_app t s r : tails_in s = true -> take_key s = Some r -> take_key (s ++ t) = Some (r ++ t).
Proof.
  unfold tails_in. intros Hi H. apply andb_prop in Hi. destruct Hi as [Hi H3]. apply andb_prop in Hi. destruct Hi as [H1 H2]. destruct s as [|c s]; [discriminate|]. cbn [app take_key] in *. destruct (c =? 27); [|apply (char_end_app t (c :: s) r H1 H)].
  destruct s as [|d s]; [discriminate|]. cbn [app skipn] in *. destruct (d =? 27); [exact (esc_end_app t s r H3 H)|exact (esc_end_app t (d :: s) r H2 H)].
Qed.
Lemma seq_ok_b s : seq_okb s && tails_in s = true -> seq_ok s.
Proof.
  intro H. apply andb_prop in H. destruct H as [H Ht]. unfold seq_okb in H. apply andb_prop in H. destruct H as [H Hz]. apply andb_prop in H. destruct H as [H Hl]. split; [|split; [lia|]].
  - destruct s as [|c s]; [left; reflexivity|right]. intro t. destruct (take_key (c :: s)) as [[|]|] eqn:E; try discriminate. exact (take_key_app t _ _ Ht E).
  - apply Forall_forall. intros b Hb. unfold nonzero in Hz. rewrite forallb_forall in Hz. specialize (Hz b Hb). lia.
Qed.
Lemma table_ok l i : forallb (fun s => seq_okb s && tails_in s) l = true -> seq_ok (nth i l []).
Proof.
  intro H. destruct (nth_in_or_default i l []) as [Hi|E]; [|rewrite E; split; [left; reflexivity|split; [cbn; lia|constructor]]]. apply seq_ok_b. rewrite forallb_forall in H. exact (H _ Hi).
Qed.
Ltac table := apply table_ok; vm_compute; reflexivity.
Lemma seqs_ok vk l f : seqs_of vk = Some l -> seq_ok (nth (keymod_index f) l []).
Proof.
  unfold seqs_of. repeat match goal with |- context [if ?b then _ else _] => destruct b; [intro H; injection H as <-; table|] end. discriminate.
Qed.
Lemma kfx_ok i : seq_ok (nth i kfx []). Proof. table. Qed.
Lemma ktab_ok f : seq_ok (nth (keymod_index f) ktab []). Proof. table. Qed.
Lemma kspc_ok f : seq_ok (nth (keymod_index f) kspc []). Proof. table. Qed.
Lemma kret_ok f : seq_ok (nth (keymod_index f) kret []). Proof. table. Qed.
Lemma recognized_in vk : is_vk_recognized vk = true -> In vk (map N.of_nat (seq 48 10 ++ seq 65 26 ++ seq 186 7 ++ seq 219 4)).
Proof. unfold is_vk_recognized, is_letter. intro H. apply in_map_iff. exists (N.to_nat vk). split; [apply N2Nat.id|]. rewrite !in_app_iff, !in_seq. lia. Qed.
Lemma ext_all : forallb (fun vk => forallb (fun m => let s := csi "27;" ++ (if (2 <=? m)%nat then dec (N.of_nat m) ++ [59] else []) ++ dec vk ++ [126] in seq_okb s && tails_in s && match s with [] => false | _ => true end) (seq 1 8)) (map N.of_nat (seq 48 10 ++ seq 65 26 ++ seq 186 7 ++ seq 219 4)) = true.
Proof. vm_compute. reflexivity. Qed.
Lemma xterm_range f : In (xterm_modifier f) (seq 1 8).
Proof. apply in_seq. unfold xterm_modifier, bit. destruct (f_shift f), (alt f), (ctrl f); lia. Qed.
Lemma ext_ok vk f : is_vk_recognized vk = true -> seq_ok (csi "27;" ++ (if (2 <=? xterm_modifier f)%nat then dec (N.of_nat (xterm_modifier f)) ++ [59] else []) ++ dec vk ++ [126]).
Proof.
  intro H. pose proof ext_all as A. rewrite forallb_forall in A. specialize (A vk (recognized_in vk H)). rewrite forallb_forall in A. specialize (A _ (xterm_range f)). cbv zeta in A. apply andb_prop in A. destruct A as [A _]. apply seq_ok_b. exact A.
Qed.

(** ** What a key does *)
Definition val_ok (v : N) : Prop := v < 65536 /\ ~ half v.
Definition act_good (a : act) : Prop :=
  match a with
  | ANone | AExit => True
  | ASeq s => seq_ok s
  | AVals [v] => val_ok v /\ v <> 27
  | AVals [e; v] => e = 27 /\ val_ok v /\ v <> 27 /\ v <> 79 /\ v <> 91
  | AVals _ => False
  end.
Lemma act_good_ok a : act_good a -> act_ok a /\ (act_bytes a = [] \/ whole (act_bytes a)).
Proof.
  destruct a as [|s|l|]; cbn [act_good].
  - intros _. split; [split; [cbn; lia|exact Logic.I]|left; reflexivity].
  - intros (H1 & H2 & H3). split; [split; [exact H2|eapply Forall_impl; [|exact H3]; cbv beta; intros; lia]|exact H1].
  - destruct l as [|v [|w [|]]]; [destruct 1| |intros (-> & [Hv Hh] & H1 & H2 & H3)|].
    + intros [[Hv Hh] Hn]. unfold act_ok. cbn [act_bytes flat_map]. rewrite app_nil_r. pose proof (utf8_len v). split; [split; [unfold size; lia|repeat constructor; assumption]|right; apply whole_char; assumption].
    + unfold act_ok. cbn [act_bytes flat_map]. rewrite app_nil_r. rewrite (utf8_ascii 27) by lia. cbn [app length]. pose proof (utf8_len w). split; [split; [unfold size; lia|]|right; apply whole_alt; assumption].
      apply Forall_cons; [unfold half; lia|]. apply Forall_cons; [split; assumption|apply Forall_nil].
    + destruct v; try (destruct 1); destruct p; destruct 1.
  - intros _. split; [split; [cbn; unfold size; lia|exact Logic.I]|right; intro t; reflexivity].
Qed.
Section K.
Variable kn : N -> N -> option N.
Variable g : settings.
Hypothesis Hraw : g_raw_esc g = false.
Lemma bracket_ok vk sc v : translate_ctrl_bracket kn g vk sc = Some v -> v = 28 \/ v = 29.
Proof. unfold translate_ctrl_bracket. rewrite Hraw. destruct (kn vk sc) as [c|]; [|discriminate]. destruct (c =? 91); [discriminate|]. destruct ((c =? 93) || (c =? 92)) eqn:E; [|discriminate]. intro H. injection H as <-. lia. Qed.
Lemma ctrl_code_ok c vk sc f v : (c = 27 -> g_diff g = true) -> ctrl_code kn g c vk sc f = Some v -> v < 32 /\ v <> 27.
Proof.
  intros Hc. unfold ctrl_code. assert (B : forall w, translate_ctrl_bracket kn g vk sc = Some w -> w < 32 /\ w <> 27) by (intros w Hw; apply bracket_ok in Hw; lia).
  destruct (negb (f_shift f) || (vk =? 50) || (vk =? 54) || (vk =? VK_OEM_MINUS)); [|discriminate]. cbv zeta. destruct (is_letter vk) eqn:El.
  - destruct (((vk =? 72) || (vk =? 73)) && g_diff g); [apply B|]. destruct ((vk =? 77) && (g_diff g || g_windows g)); [apply B|]. intro H. injection H as <-. unfold is_letter in El. lia.
  - destruct (vk =? 50); [destruct (g_diff g && negb (f_shift f)); [apply B|intro H; injection H as <-; lia]|]. destruct (vk =? 54); [destruct (g_diff g && negb (f_shift f)); [apply B|intro H; injection H as <-; lia]|]. destruct (vk =? VK_OEM_MINUS); [destruct (f_shift f); [intro H; injection H as <-; lia|discriminate]|].
    destruct (c =? 27) eqn:Ec; [rewrite (Hc ltac:(lia)); apply B|]. destruct ((c =? 28) || (c =? 29)) eqn:Ed; [intro H; injection H as <-; lia|apply B].
Qed.
Lemma rest_good c vk sc f : (c = 27 -> g_diff g = true) -> act_good (process_rest kn g c vk sc f).
Proof.
  intro Hc. unfold process_rest. destruct (seqs_of vk) as [l|] eqn:E; [exact (seqs_ok vk l f E)|]. cbv zeta.
  assert (X : act_good (if is_vk_recognized vk then ASeq (csi "27;" ++ (if (2 <=? xterm_modifier f)%nat then dec (N.of_nat (xterm_modifier f)) ++ [59] else []) ++ dec vk ++ [126]) else ANone)).
  { destruct (is_vk_recognized vk) eqn:Ev; [apply ext_ok, Ev|exact Logic.I]. }
  destruct (ctrl f); [|exact X]. destruct (ctrl_code kn g c vk sc f) as [v|] eqn:Ev; [|exact X]. destruct (ctrl_code_ok c vk sc f v Hc Ev) as [H1 H2]. unfold with_alt, act_good. destruct (alt f); unfold val_ok, half; repeat split; lia.
Qed.
Lemma process_good k : ordinary g k -> act_good (process_key kn g false true k).
Proof.
  intros ((Hu & Hh) & Hr & Ha). unfold process_key. cbv zeta. destruct (negb (k_down k) && negb ((k_vk k =? VK_MENU) && negb (k_char k =? 0))); [exact Logic.I|].
  destruct (k_vk k =? VK_MENU) eqn:Em. { destruct (k_char k =? 0); [exact Logic.I|]. split; [split; assumption|]. intro E. apply Hr. split; [exact E|left; lia]. }
  destruct ((k_vk k =? VK_CONTROL) || (k_vk k =? VK_SHIFT) || (k_vk k =? VK_LWIN) || (k_vk k =? VK_RWIN)); [exact Logic.I|]. unfold get_bindable_esc. rewrite Hraw.
  destruct ((k_char k =? 27) && ((k_vk k =? VK_ESCAPE) || negb (g_diff g)) && negb false) eqn:Eb. { apply seq_ok_b. vm_compute. reflexivity. }
  assert (Hd : k_char k = 27 -> g_diff g = true /\ k_vk k <> VK_ESCAPE /\ ctrl (k_flags k) = true).
  { intro E. assert (D : g_diff g = true) by (destruct (g_diff g); [reflexivity|lia]). assert (V : k_vk k <> VK_ESCAPE) by lia. split; [exact D|]. split; [exact V|]. destruct (ctrl (k_flags k)) eqn:E1; [auto|]. exfalso. apply Hr. split; [exact E|right]. auto. }
  destruct (altgr_sub g (k_char k) (k_flags k)) as [c f] eqn:Es.
  assert (Hc : (c = 0 \/ c = k_char k) /\ f_shift f = f_shift (k_flags k) /\ ctrl f = ctrl (k_flags k) /\ (alt f = alt (k_flags k) \/ alt f = false /\ ctrl (k_flags k) = true)).
  { revert Es. unfold altgr_sub. destruct (f_lalt (k_flags k) && negb (f_ralt (k_flags k))); [|intro H; injection H as <- <-; auto]. destruct (ctrl (k_flags k)) eqn:E1; cbn [andb]; [|intro H; injection H as <- <-; rewrite E1; auto]. destruct (negb (k_char k =? 0)); cbn [andb]; [|intro H; injection H as <- <-; rewrite E1; auto 6]. destruct (negb (g_altgr g)); intro H; injection H as <- <-; cbn; auto 8. }
  clear Es. destruct Hc as (Hc & Hs & Hct & Hal).
  destruct ((k_vk k =? VK_TAB) && ((c =? 9) || (c =? 0)) && true); [apply ktab_ok|]. destruct ((k_vk k =? VK_SPACE) && ((c =? 32) || (c =? 0)) && true); [apply kspc_ok|]. destruct ((k_vk k =? VK_RETURN) && (f_shift f || ctrl f || alt f || f_other f) && true); [apply kret_ok|].
  set (f' := if (31 <? c) && negb (c =? 127) && ctrl f then mkF (f_shift f) false false false false (f_other f) else f).
  assert (Hf : f_shift f' = f_shift (k_flags k) /\ (c = 27 -> f' = f) /\ (31 < c -> c <> 127 -> ctrl f' = false /\ (alt f' = true -> alt (k_flags k) = true /\ ctrl (k_flags k) = false))).
  { subst f'. destruct ((31 <? c) && negb (c =? 127) && ctrl f) eqn:E; cbn [f_shift]; (split; [exact Hs|]); (split; [intros ->; try reflexivity; lia|]); intros H1 H2. - split; [reflexivity|discriminate]. - assert (Z : ctrl f = false) by (destruct (ctrl f); [lia|reflexivity]). split; [exact Z|]. rewrite <- Hct. intro A. destruct Hal as [Hal|[Hal _]]; [rewrite <- Hal; auto|congruence]. }
  clearbody f'. destruct Hf as (Hf1 & Hf2 & Hf3).
  destruct ((c =? 9) && true && f_shift f' && negb (g_diff g)); [apply seq_ok_b; vm_compute; reflexivity|].
  destruct ((VK_F1 <=? k_vk k) && (k_vk k <=? VK_F12)). { destruct ((keymod_index f' =? 4)%nat && (k_vk k - VK_F1 =? 3) && g_altf4 g); [exact Logic.I|apply kfx_ok]. }
  destruct (negb (c =? 0) && (c =? 79) && negb false && negb (ctrl f') && f_shift f' && alt f') eqn:EO; [apply seq_ok_b; vm_compute; reflexivity|].
  destruct (negb (c =? 0) && (c =? 91) && negb false && negb (ctrl f' || f_shift f') && alt f') eqn:EB; [apply seq_ok_b; vm_compute; reflexivity|].
  destruct (negb (c =? 0) && simple_char g c (k_vk k) f') eqn:ES; [|apply rest_good; intro E; destruct Hc as [Hc|Hc]; [lia|]; apply Hd; lia].
  assert (Hcc : c = k_char k) by lia. assert (Hv : val_ok c) by (split; rewrite Hcc; assumption).
  apply andb_prop in ES. destruct ES as [ES0 ES]. unfold simple_char in ES.
  assert (H27 : c <> 27).
  { intro E. destruct (Hd ltac:(lia)) as (D & V & W). rewrite (Hf2 E) in ES. rewrite D, E, Hct, W in ES. destruct ((k_vk k =? 72) || (k_vk k =? 73)); [discriminate|]. destruct (k_vk k =? 77); [discriminate|].
    replace ((27 =? 27) && negb (k_vk k =? VK_ESCAPE)) with true in ES by lia. unfold keymod_index, bit in ES. rewrite Hct, W in ES. lia. }
  unfold with_alt, act_good. destruct (alt f') eqn:Ea; [|auto]. split; [reflexivity|]. split; [exact Hv|]. split; [exact H27|].
  assert (Hx : 31 < c -> c <> 127 -> ctrl f' = false /\ alt (k_flags k) = true /\ ctrl (k_flags k) = false) by (intros X Y; destruct (Hf3 X Y) as [Z W]; destruct (W eq_refl); auto).
  split; intro E; (destruct Hx as (X1 & X2 & X3); [lia|lia|]); apply Ha; (split; [exact X2|]); (split; [exact X3|]); rewrite <- Hcc, <- Hf1; rewrite X1, E in EO, EB; cbn in EO, EB; destruct (f_shift f'); auto; discriminate.
Qed.
End K.

(** ** The mouse *)
Lemma digits_num fuel : forall n, Forall (fun c => 48 <= c <= 57) (digits fuel n) /\ (length (digits fuel n) <= fuel)%nat.
Proof.
  induction fuel as [|fuel IH]; intro n; [split; [constructor|cbn; lia]|]. cbn [digits]. destruct (N.ltb_spec n 10); [split; [repeat constructor; lia|cbn; lia]|]. destruct (IH (n / 10)) as [A B]. split; [apply Forall_app; split; [exact A|repeat constructor; lia]|rewrite app_length; cbn [length]; lia].
Qed.
Lemma digits_len k : forall fuel n, n < 10 ^ N.of_nat (S k) -> (length (digits fuel n) <= S k)%nat.
Proof.
  induction k as [|k IH]; intros fuel n H; (destruct fuel as [|fuel]; [cbn; lia|]); cbn [digits].
  - change (10 ^ N.of_nat 1) with 10 in H. replace (n <? 10) with true by lia. cbn. lia.
  - destruct (N.ltb_spec n 10); [cbn; lia|]. rewrite app_length. cbn [length]. assert (X : n / 10 < 10 ^ N.of_nat (S k)). { apply N.div_lt_upper_bound; [lia|]. replace (N.of_nat (S (S k))) with (N.succ (N.of_nat (S k))) in H by lia. rewrite N.pow_succ_r' in H. exact H. } specialize (IH fuel (n / 10) X). lia.
Qed.
Lemma csi_end_params a : Forall (fun c => 48 <= c <= 59) a -> forall l, csi_end (a ++ l) = csi_end l.
Proof. induction 1 as [|c a H Ha IH]; intro l; [reflexivity|]. cbn [app csi_end]. replace ((48 <=? c) && (c <=? 59)) with true by lia. apply IH. Qed.
Lemma mouse_seq a c : Forall (fun c => 48 <= c <= 59) a -> (length a <= 12)%nat -> c = 76 \/ c = 68 \/ c = 82 \/ c = 77 \/ c = 65 \/ c = 66 \/ c = 60 \/ c = 62 -> seq_ok (csi "$" ++ a ++ [c]).
Proof.
  intros Ha Hl Hc. split; [|split].
  - right. intro t. change (csi "$" ++ a ++ [c]) with (27 :: 91 :: 36 :: (a ++ [c])). cbn [app take_key]. change (27 =? 27) with true. change (91 =? 27) with false. cbv iota. cbn [esc_end]. change (91 =? 79) with false. change (91 =? 91) with true. change (36 =? 36) with true. cbv iota. rewrite <- app_assoc, csi_end_params by exact Ha. cbn [app csi_end]. replace ((48 <=? c) && (c <=? 59)) with false by lia. reflexivity.
  - rewrite !app_length. cbn. unfold size. lia.
  - apply Forall_app. split; [repeat constructor; lia|]. apply Forall_app. split; [eapply Forall_impl; [|exact Ha]; cbv beta; intros; lia|repeat constructor; lia].
Qed.
Lemma dec_params n : Forall (fun c => 48 <= c <= 59) (dec n).
Proof. eapply Forall_impl; [|exact (proj1 (digits_num 11 n))]. cbv beta. intros. lia. Qed.
Lemma mouse_good acc lines prev m : on_screen m -> act_good (process_mouse acc lines prev m).
Proof.
  intros [Hx Hy]. unfold process_mouse. destruct (mouse_type prev m) as [ty|]; [|exact Logic.I]. destruct (negb (acc ty)); [exact Logic.I|]. cbv zeta.
  assert (L : forall z, (0 <= z < 32768)%Z -> (length (dec (u32 z)) <= 5)%nat). { intros z Hz. apply (digits_len 4). unfold u32. rewrite Z.mod_small by lia. change (10 ^ N.of_nat 5) with 100000. lia. }
  assert (C : forall c, c = 76 \/ c = 68 \/ c = 82 \/ c = 77 -> seq_ok (csi "$" ++ dec (u32 (ms_x m)) ++ [59] ++ dec (u32 (ms_y m)) ++ [c])).
  { intros c Hc. replace (dec (u32 (ms_x m)) ++ [59] ++ dec (u32 (ms_y m)) ++ [c]) with ((dec (u32 (ms_x m)) ++ [59] ++ dec (u32 (ms_y m))) ++ [c]) by (rewrite <- !app_assoc; reflexivity). apply mouse_seq.
    - apply Forall_app. split; [apply dec_params|]. apply Forall_app. split; [repeat constructor; lia|apply dec_params].
    - rewrite !app_length. cbn [length]. pose proof (L _ Hx). pose proof (L _ Hy). lia.
    - tauto. }
  assert (D : forall n c, c = 65 \/ c = 66 \/ c = 60 \/ c = 62 -> seq_ok (csi "$" ++ dec n ++ [c])).
  { intros n c Hc. apply mouse_seq; [apply dec_params|exact (Nat.le_trans _ _ _ (proj2 (digits_num 11 n)) (le_S _ _ (le_n 11)))|tauto]. }
  destruct ty; cbn [act_good]; [apply C; destruct (ms_double m); tauto|apply C; tauto|apply D; destruct (_ <? _)%Z; tauto|apply D; destruct (_ <? _)%Z; tauto|apply C; tauto].
Qed.

(** ** What a record sends *)
Definition record_act (kn : N -> N -> option N) g acc lines (prev : bool * bool) (r : record) : act := match r with RKey k => process_key kn g false true k | RMouse m => process_mouse acc lines prev m | _ => ANone end.
Lemma record_good kn g acc lines prev r : g_raw_esc g = false -> item g r -> act_good (record_act kn g acc lines prev r).
Proof. intros Hg Hi. destruct r as [k|m|ch|]; [exact (process_good kn g Hg k Hi)|exact (mouse_good acc lines prev m Hi)|exact Logic.I|exact Logic.I]. Qed.
Lemma sent_by_act kn g acc lines prev r : g_raw_esc g = false -> item g r -> sent_by kn g acc lines prev r = act_bytes (record_act kn g acc lines prev r).
Proof.
  intros Hg Hi. destruct (act_good_ok _ (record_good kn g acc lines prev r Hg Hi)) as [Ho _]. unfold sent_by.
  assert (X : forall p, wf (apply_act (record_act kn g acc lines prev r) (mkT (repeat 0 size) 0 0 0 p [])) /\ conts (apply_act (record_act kn g acc lines prev r) (mkT (repeat 0 size) 0 0 0 p [])) = act_bytes (record_act kn g acc lines prev r)).
  { intro p. destruct (apply_act_ok (record_act kn g acc lines prev r) (mkT (repeat 0 size) 0 0 0 p [])) as (A & B & _); [split; [reflexivity|cbn; unfold size; lia]|exact Ho|reflexivity|reflexivity|]. auto. }
  destruct r as [k|m|ch|]; cbn [record_act] in X |- *.
  - destruct (X prev) as [A B]. unfold process_input. cbn [t_count]. change (0 =? 0)%nat with true. rewrite contents_ok by exact A. exact B.
  - destruct (X (ms_left m, ms_right m)) as [A B]. unfold process_input. cbn [t_prev t_buf t_head t_count t_lead t_pend]. rewrite contents_ok by exact A. exact B.
  - reflexivity.
  - reflexivity.
Qed.
Lemma sent_by_whole kn g acc lines prev r : g_raw_esc g = false -> item g r -> let s := sent_by kn g acc lines prev r in (s = [] \/ whole s) /\ (length s <= size)%nat.
Proof. intros Hg Hi. cbv zeta. rewrite sent_by_act by assumption. destruct (act_good_ok _ (record_good kn g acc lines prev r Hg Hi)) as [[Hl _] Hw]. auto. Qed.

(** ** One after the other *)
Lemma whole_cons a : whole a -> a <> [].
Proof. intros H ->. specialize (H []). discriminate. Qed.
Lemma whole_lists l1 : forall l2 : list bytes, Forall whole l1 -> Forall whole l2 -> concat l1 = concat l2 -> l1 = l2.
Proof.
  induction l1 as [|a l1 IH]; intros [|b l2] H1 H2 E; [reflexivity| | |].
  - exfalso. inversion H2; subst. cbn in E. symmetry in E. apply app_eq_nil in E. destruct E as [-> _]. eapply whole_cons; [|reflexivity]; auto.
  - exfalso. inversion H1; subst. cbn in E. apply app_eq_nil in E. destruct E as [-> _]. eapply whole_cons; [|reflexivity]; auto.
  - inversion H1 as [|? ? H3 H4]; inversion H2 as [|? ? H7 H8]; subst. cbn [concat] in E. pose proof (H3 (concat l1)) as X. pose proof (H7 (concat l2)) as Y. rewrite E, Y in X. injection X as X. rewrite X in E. apply app_inv_tail in E. subst. f_equal. apply IH; auto.
Qed.

Definition code_byte (b : N) : Prop := b < 240 \/ b = 253.
Lemma utf8_code v : v < 65536 -> Forall code_byte (utf8 v).
Proof. intro H. unfold utf8, code_byte. replace (v <? 65536) with true by lia. destruct (v <? 128) eqn:E1; [|destruct (v <? 2048) eqn:E2]; repeat apply Forall_cons; try apply Forall_nil; left; lia. Qed.
Lemma act_code a : act_good a -> Forall code_byte (act_bytes a).
Proof.
  destruct a as [|s|l|]; cbn [act_good act_bytes].
  - constructor.
  - intros (_ & _ & H). eapply Forall_impl; [|exact H]. cbv beta. unfold code_byte. intros. lia.
  - destruct l as [|v [|w [|]]]; [destruct 1| |intros (-> & [Hv Hh] & _)|].
    + intros [[Hv _] _]. cbn [flat_map]. rewrite app_nil_r. apply utf8_code, Hv.
    + cbn [flat_map]. rewrite app_nil_r. rewrite (utf8_ascii 27) by lia. apply Forall_app. split; [repeat constructor; lia|apply utf8_code, Hv].
    + destruct v; try (destruct 1); destruct p; destruct 1.
  - intros _. apply Forall_cons; [right; reflexivity|constructor].
Qed.
