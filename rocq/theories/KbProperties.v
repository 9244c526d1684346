(** Properties of the keyboard and mouse input: C85 to C88. *)
From Coq Require Import Ascii String.
From Verif Require Import Base UtfSpec KbSpec KbBuf KbKeys KbQueue KbPeek KbTell KbExt KbText.
Open Scope N_scope.

(** ** C85: where one key ends and the next begins *)
(** what one key or click sends is never the beginning of what another sends *)
Theorem no_key_begins_another : forall kn g acc lines prev1 prev2 r1 r2 t, g_raw_esc g = false -> item g r1 -> item g r2 ->
  sent_by kn g acc lines prev1 r1 <> [] -> sent_by kn g acc lines prev2 r2 = sent_by kn g acc lines prev1 r1 ++ t -> t = [].
Proof.
  intros kn g acc lines prev1 prev2 r1 r2 t Hg H1 H2 Hn E. destruct (sent_by_whole kn g acc lines prev1 r1 Hg H1) as [[A|A] _]; [contradiction|]. destruct (sent_by_whole kn g acc lines prev2 r2 Hg H2) as [[B|B] _]; [|exact (whole_prefix _ _ t A B E)].
  cbv zeta in B. rewrite B in E. symmetry in E. apply app_eq_nil in E. destruct E as [E _]. contradiction.
Qed.
(** so the bytes of one key after another tell what each sent *)
Theorem keys_recovered : forall kn g acc lines p1 p2 q1 q2, g_raw_esc g = false -> Forall (item g) q1 -> Forall (item g) q2 ->
  concat (sents kn g acc lines p1 q1) = concat (sents kn g acc lines p2 q2) ->
  filter nonempty (sents kn g acc lines p1 q1) = filter nonempty (sents kn g acc lines p2 q2).
Proof.
  intros kn g acc lines p1 p2 q1 q2 Hg H1 H2 E.
  assert (X : forall q p, Forall (item g) q -> Forall whole (filter nonempty (sents kn g acc lines p q)) /\ concat (filter nonempty (sents kn g acc lines p q)) = concat (sents kn g acc lines p q)).
  { intros q p H. revert p. induction H as [|r q Hr Hq IH]; intro p; [split; [constructor|reflexivity]|]. cbn [sents filter concat]. destruct (IH (prev_after p r)) as [A B]. destruct (sent_by_whole kn g acc lines p r Hg Hr) as [W _]. cbv zeta in W. destruct (sent_by kn g acc lines p r) as [|b s]; cbn [nonempty]; [split; [exact A|exact B]|]. split; [constructor; [destruct W as [W|W]; [discriminate|exact W]|exact A]|]. cbn [concat]. rewrite B. reflexivity. }
  destruct (X q1 p1 H1) as [A1 B1]. destruct (X q2 p2 H2) as [A2 B2]. apply whole_lists; [exact A1|exact A2|]. rewrite B1, B2. exact E.
Qed.
Definition no_flags := mkF false false false false false false.
Definition the_settings := mkSet false true false false true.
Definition letter_name (vk sc : N) : option N := Some vk.
Example keys_recovered_ex :
  let q := [RKey (mkK true 0 VK_UP 72 (mkF false true false false false true)); RKey (mkK true 27 VK_ESCAPE 1 no_flags); RKey (mkK true 8364 69 18 (mkF false true false false true false)); RMouse (mkMs 10 3 true false 0 false false false false)] in
  Forall (item the_settings) q /\ sents letter_name the_settings (fun _ => true) 3 (false, false) q = [csi "1;5A"; csi "27;27~"; [226; 130; 172]; csi "$10;3L"].
Proof. split; [|vm_compute; reflexivity]. repeat (apply Forall_cons; [cbn; unfold ordinary, unit_char, half, raw_escape, alt_intro, on_screen; cbn; unfold VK_MENU, VK_ESCAPE; lia|]). apply Forall_nil. Qed.
Print Assumptions no_key_begins_another.
Print Assumptions keys_recovered.
(** Alt and O with Caps Lock on sends what F1 to F4 begin with, and Alt and a shifted [ what most keys begin with; Alt with Shift and O, or with [, are given their own sequences to avoid just that *)
Theorem caps_lock_refuted : exists k1 k2 t, unit_char k1 /\ ordinary the_settings k2 /\ sent letter_name the_settings k1 = [27; 79] /\ sent letter_name the_settings k2 = sent letter_name the_settings k1 ++ t /\ t <> [] /\
  k_vk k1 = 79 /\ alt (k_flags k1) = true /\ k_vk k2 = VK_F1.
Proof.
  exists (mkK true 79 79 24 (mkF false false false true false true)), (mkK true 0 VK_F1 59 no_flags), [80]. split; [unfold unit_char, half; cbn; lia|]. split; [unfold ordinary, unit_char, half, raw_escape, alt_intro; cbn; unfold VK_MENU, VK_ESCAPE; lia|]. vm_compute. repeat split; discriminate.
Qed.
Theorem shifted_bracket_refuted : exists k1 k2 t, unit_char k1 /\ ordinary the_settings k2 /\ sent letter_name the_settings k1 = [27; 91] /\ sent letter_name the_settings k2 = sent letter_name the_settings k1 ++ t /\ t <> [].
Proof.
  exists (mkK true 91 56 9 (mkF true false false true false false)), (mkK true 0 VK_UP 72 no_flags), [65]. split; [unfold unit_char, half; cbn; lia|]. split; [unfold ordinary, unit_char, half, raw_escape, alt_intro; cbn; unfold VK_MENU, VK_ESCAPE; lia|]. vm_compute. repeat split; discriminate.
Qed.

(** ** C86: keys are told apart and have their names *)
(** the keys with names, with any of Shift, Ctrl and Alt *)
Theorem special_keys_told_apart : forall kn g k1 k2, g_altgr g = false -> special k1 -> special k2 -> sent kn g k1 <> [] -> sent kn g k1 = sent kn g k2 -> which k1 = which k2.
Proof.
  intros kn g k1 k2 Hg H1 H2 Hn E. rewrite !special_sent in * by assumption. pose proof apart_special as A. rewrite forallb_forall in A. specialize (A g (in_settings g)). cbv beta in A. apply orb_prop in A. destruct A as [A|A]; [congruence|].
  pose proof (special_in kn g false k1 Hg H1) as I1. pose proof (special_in kn g false k2 Hg H2) as I2. rewrite <- E in I2. exact (apart_ok _ A _ _ _ I1 I2 Hn).
Qed.
(** with terminal.differentiate_keys also from Ctrl and a letter *)
Theorem ctrl_letters_told_apart : forall kn g k1 k2, g_altgr g = false -> g_diff g = true -> letters_named kn -> special k1 \/ ctrl_letter k1 -> special k2 \/ ctrl_letter k2 ->
  sent kn g k1 <> [] -> sent kn g k1 = sent kn g k2 -> which k1 = which k2.
Proof.
  intros kn g k1 k2 Hg Hd Hl H1 H2 Hn E. assert (X : forall k, special k \/ ctrl_letter k -> sent kn g k = act_bytes (process_key kn g false true k) /\ In (sent kn g k, which k) (all_codes g true)).
  { intros k [H|H]; [rewrite special_sent by exact H; split; [reflexivity|apply special_in; assumption]|rewrite letter_sent by assumption; split; [reflexivity|apply letter_in; assumption]]. }
  destruct (X k1 H1) as [_ I1]. destruct (X k2 H2) as [_ I2]. rewrite <- E in I2. pose proof apart_letters as A. rewrite forallb_forall in A. specialize (A g (in_settings g)). cbv beta in A. apply orb_prop in A. destruct A as [A|A]; [rewrite Hg, Hd in A; discriminate|]. exact (apart_ok _ A _ _ _ I1 I2 Hn).
Qed.
Definition differentiating := mkSet false true true false true.
Example told_apart_ex :
  let h := mkK true 8 72 35 (mkF false true false false false false) in let b := mkK true 8 VK_BACK 14 no_flags in
  ctrl_letter h /\ special b /\ letters_named letter_name /\ sent letter_name differentiating h = csi "27;5;72~" /\ sent letter_name differentiating b = [8] /\ sent letter_name the_settings h = [8].
Proof. split; [unfold ctrl_letter; cbn; lia|]. split; [split; [reflexivity|right; left; split; reflexivity]|]. split; [intros vk sc _; reflexivity|]. vm_compute. auto. Qed.
Print Assumptions special_keys_told_apart.
Print Assumptions ctrl_letters_told_apart.
(** what they send is found by its name, with the modifiers, whatever follows and whatever sequences are hashed alike *)
Theorem special_keys_named : forall kn g bucket vk_name k t, g_altgr g = false -> (forall s, bucket s s = true) -> special k -> has_name g k ->
  find_key_name bucket vk_name g false (sent kn g k ++ t) = Some (length (sent kn g k), full_name k).
Proof.
  intros kn g bucket vk_name k t Hg Hb Hs Hn. rewrite special_sent by exact Hs. destruct (special_named kn g k Hg Hs Hn) as (W & L & A). cbv zeta in *. set (s := act_bytes _) in *. unfold find_key_name. destruct (s ++ t) as [|x y] eqn:E; [exfalso; apply app_eq_nil in E; destruct E as [E _]; exact (whole_cons _ W E)|]. rewrite <- E.
  rewrite (find_longest_whole bucket Hb s (full_name k) _ t (names_whole g) W A); [reflexivity|apply Nat.min_glb; [exact L|rewrite app_length; lia]|apply Nat.le_min_r].
Qed.
(** and those of Ctrl and letters that have their own sequences by the name of the letter, if different sequences are not hashed alike *)
Theorem ctrl_letters_named : forall kn g bucket vk_name k nm t, g_altgr g = false -> g_diff g = true -> letters_named kn -> (forall a b, bucket a b = true -> is_prefix a b = true -> a = b) ->
  ctrl_letter k -> own_sequence k -> vk_name (k_vk k) = Some nm -> find_key_name bucket vk_name g false (sent kn g k ++ t) = Some (length (sent kn g k), mods_prefix k ++ nm).
Proof.
  intros kn g bucket vk_name k nm t Hg Hd Hl Hb Hk Ho Hv. rewrite letter_sent by assumption. apply (own_named bucket vk_name Hb g k t nm kn); try assumption. unfold own, which. cbn [fst snd]. replace (ctrl (k_flags k)) with true by (symmetry; apply Hk). unfold own_sequence in Ho. destruct (f_shift (k_flags k)); [reflexivity|]. cbn [andb orb]. destruct Ho as [Ho | [-> | [-> | ->]]]; [discriminate|reflexivity|reflexivity|reflexivity].
Qed.
(** C86: without terminal.use_altgr_substitute, Ctrl and the left Alt never type text: a character that the layout has for the key makes no difference *)
Theorem ctrl_alt_not_text : forall kn g k, g_altgr g = false -> k_down k = true -> k_vk k <> VK_MENU -> k_char k <> 27 ->
  ctrl (k_flags k) = true -> f_lalt (k_flags k) = true -> f_ralt (k_flags k) = false ->
  sent kn g k = sent kn g (mkK true 0 (k_vk k) (k_sc k) (k_flags k)).
Proof.
  intros kn g [d c vk sc f] Hg Hd Hm Hc F1 F2 F3. cbn [k_down k_vk k_char k_flags k_sc] in *. subst d.
  assert (E : forall e r, process_key kn g r e (mkK true c vk sc f) = process_key kn g r e (mkK true 0 vk sc f)).
  { intros e r. unfold process_key. cbn [k_down k_vk k_char k_flags k_sc negb andb]. destruct (vk =? VK_MENU) eqn:M; [apply N.eqb_eq in M; contradiction|].
    destruct ((vk =? VK_CONTROL) || (vk =? VK_SHIFT) || (vk =? VK_LWIN) || (vk =? VK_RWIN)); [reflexivity|].
    replace (c =? 27) with false by (symmetry; apply N.eqb_neq; exact Hc). change (0 =? 27) with false. cbn [andb].
    unfold altgr_sub. rewrite F1, F2, F3, Hg. cbn [andb negb]. change (0 =? 0) with true. cbn [negb]. cbv zeta. destruct (c =? 0) eqn:Z; cbn [negb]; [apply N.eqb_eq in Z; subst c|]; reflexivity. }
  unfold sent, sent_by, process_input. rewrite !E. reflexivity.
Qed.
Print Assumptions ctrl_alt_not_text.
(** the key of 7 on a German keyboard, which has { with AltGr *)
Example ctrl_alt_not_text_ex :
  let g := mkSet false false true false false in let k := mkK true 123 55 8 (mkF false true false true false false) in
  g_altgr g = false /\ sent (fun vk _ => Some vk) g k = sent (fun vk _ => Some vk) g (mkK true 0 55 8 (mkF false true false true false false)) /\ sent (fun vk _ => Some vk) g k <> [] /\
  sent (fun vk _ => Some vk) (mkSet false false true true false) k = [123].
Proof. vm_compute. split; [reflexivity|]. split; [reflexivity|]. split; [discriminate|reflexivity]. Qed.
Example special_keys_named_ex :
  let k := mkK true 0 VK_F1 59 (mkF true false true true false false) in
  special k /\ has_name the_settings k /\ full_name k = str "A-C-S-F1" /\ find_key_name (fun _ _ => true) (fun _ => None) the_settings false (sent letter_name the_settings k ++ str "xyz") = Some (7%nat, str "A-C-S-F1").
Proof.
  split; [split; [reflexivity|left; split; [right; cbn; auto|reflexivity]]|]. split; [split; [intros [[H | [H | []]] _]; discriminate|]; split; [intros (H & _); discriminate|]; split; [intros (H & _); discriminate|intros (H & _); discriminate]|]. split; [reflexivity|]. vm_compute. reflexivity.
Qed.
Example ctrl_letters_named_ex :
  let k := mkK true 9 73 23 (mkF false false true false false false) in
  ctrl_letter k /\ own_sequence k /\ find_key_name eqb (fun vk => Some [vk]) differentiating false (sent letter_name differentiating k ++ str "xyz") = Some (length (csi "27;5;73~"), str "C-I").
Proof. split; [unfold ctrl_letter; cbn; lia|]. split; [right; right; left; reflexivity|]. vm_compute. reflexivity. Qed.
Print Assumptions special_keys_named.
Print Assumptions ctrl_letters_named.
(** Alt-[ is called "A-C-S-A-[" unless Enter has a name of its own: the name is built from what was left of another *)
Theorem alt_bracket_name_refuted : exists g k, ordinary g k /\ k_char k = 91 /\ mods_prefix k = str "A-" /\ find_key_name eqb (fun _ => None) g false (sent letter_name g k) = Some (length (sent letter_name g k), str "A-C-S-A-[").
Proof.
  exists (mkSet false true false false false), (mkK true 91 219 26 (mkF false false false true false false)). split; [unfold ordinary, unit_char, half, raw_escape, alt_intro; cbn; unfold VK_MENU, VK_ESCAPE; lia|]. vm_compute. auto.
Qed.
(** terminal.differentiate_keys does not tell Ctrl-[ from Esc if terminal.raw_esc is on *)
Theorem raw_escape_refuted : exists g k1 k2, g_diff g = true /\ k_vk k1 = VK_ESCAPE /\ k_vk k2 = 219 /\ ctrl (k_flags k2) = true /\ sent (fun _ _ => Some 91) g k1 = [27] /\ sent (fun _ _ => Some 91) g k2 = [27].
Proof. exists (mkSet true true true false true), (mkK true 27 VK_ESCAPE 1 no_flags), (mkK true 27 219 26 (mkF false true false false false false)). vm_compute. auto 10. Qed.

(** ** C87: input is neither lost nor reordered *)
(** whatever available, peek, select and read are called in between, the same is read in the end as by reading straight on *)
Theorem input_kept_in_order : forall kn g acc lines ks buf head q l n, is_buffer buf head -> paired false q -> (17 * length q <= n)%nat ->
  let '(a, s) := calls kn g acc lines ks l (fresh buf head, q) in
  a ++ fst (calls kn g acc lines ks (straight n) s) = fst (calls kn g acc lines ks (straight n) (fresh buf head, q)).
Proof.
  intros kn g acc lines ks buf head q l n [Hb Hh] Hp Hn. set (s0 := (fresh buf head, q)). assert (W : wf (fst s0)) by (split; [exact Hb|]; split; [exact Hh|cbn; unfold size; lia]).
  assert (Hi : inv kn g acc lines ks s0) by (exists 0, false; split; [intro H; congruence|]; split; [exact Hp|left; reflexivity]). destruct (calls_out kn g acc lines ks l s0 W Hi) as (A & B & C). assert (M : (measure s0 <= n)%nat) by exact Hn.
  destruct (calls kn g acc lines ks l s0) as [a s]. cbn [fst snd] in *. rewrite !straight_out by (try exact A; try exact W; lia). symmetry. exact B.
Qed.
(** with the mouse, if nothing looks ahead *)
Theorem mouse_kept_in_order : forall kn g acc lines ks buf head q l n, is_buffer buf head -> Forall keeps l -> (17 * length q <= n)%nat ->
  let '(a, s) := calls kn g acc lines ks l (fresh buf head, q) in
  a ++ fst (calls kn g acc lines ks (straight n) s) = fst (calls kn g acc lines ks (straight n) (fresh buf head, q)).
Proof.
  intros kn g acc lines ks buf head q l n [Hb Hh] Hk Hn. set (s0 := (fresh buf head, q)). assert (W : wf (fst s0)) by (split; [exact Hb|]; split; [exact Hh|cbn; unfold size; lia]).
  destruct (kept_out kn g acc lines ks l s0 W Hk) as (A & B & C). assert (M : (measure s0 <= n)%nat) by exact Hn.
  destruct (calls kn g acc lines ks l s0) as [a s]. cbn [fst snd] in *. rewrite !straight_out by (try exact A; try exact W; lia). symmetry. exact B.
Qed.
Lemma pend_byte p b t : push_byte b (set_pend p t) = set_pend p (push_byte b t).
Proof. unfold push_byte. cbn [set_pend t_count]. destruct (t_count t <? size)%nat; reflexivity. Qed.
Lemma pend_bytes p l : forall t, push_bytes l (set_pend p t) = set_pend p (push_bytes l t).
Proof. induction l as [|b l IH]; intro t; [reflexivity|]. unfold push_bytes in *. cbn [fold_left]. rewrite pend_byte. apply IH. Qed.
Lemma pend_val p v t : push_val v (set_pend p t) = set_pend p (push_val v t).
Proof. unfold push_val. change (set_lead 0 (set_pend p t)) with (set_pend p (set_lead 0 t)). change (t_lead (set_pend p t)) with (t_lead t). destruct (v <? 128); [apply pend_byte|]. destruct (is_lead_surrogate v); [reflexivity|]. apply pend_bytes. Qed.
Lemma pend_vals p l : forall t, push_vals l (set_pend p t) = set_pend p (push_vals l t).
Proof. induction l as [|b l IH]; intro t; [reflexivity|]. unfold push_vals in *. cbn [fold_left]. rewrite pend_val. apply IH. Qed.
Lemma pend_act p a t : apply_act a (set_pend p t) = set_pend p (apply_act a t).
Proof. destruct a as [|s|l|]; cbn [apply_act]; [reflexivity|unfold push_seq; exact (pend_bytes p _ (set_lead 0 t))|apply pend_vals|reflexivity]. Qed.
Lemma pend_input kn g acc lines r p t : process_input kn g acc lines false r (set_pend p t) = set_pend p (process_input kn g acc lines false r t).
Proof. destruct r as [k|m|ch|]; cbn [process_input]; [apply pend_act| |reflexivity|reflexivity]. exact (pend_act p _ (mkT (t_buf t) (t_head t) (t_count t) (t_lead t) (ms_left m, ms_right m) (t_pend t))). Qed.
(** what peek gives is what read gives next *)
Theorem peek_then_read : forall kn g acc lines ks t b, harmless ks -> fst (peek kn g acc lines false t) = Byte b -> fst (read kn g acc lines ks false false t) = Byte b.
Proof.
  intros kn g acc lines ks t b Hk. unfold peek, read. cbv zeta. destruct (0 <? t_count t)%nat eqn:Ec.
  - cbn [fst]. rewrite Ec. unfold pop. destruct (t_count t); [discriminate|]. exact (fun H => H).
  - destruct (t_pend t) as [|r p]; [discriminate|]. assert (F : forall n x, filter_unbound_input ks n x = x) by (intros; apply filter_id, Hk).
    assert (X : forall r, (match r with RKey _ | RMouse _ => True | _ => False end) -> fst (let '(ret, c, t0) := peek_record kn g acc lines false r t in (if ret then match c with Some c0 => translate_special c0 | None => Undefined end else None_, t0)) = Byte b ->
      let t' := process_input kn g acc lines false r t in (t_count t < t_count t')%nat /\ translate_special (nth (t_head t') (t_buf t') 0) = Byte b).
    { clear r. intros r Hr H. cbv zeta. assert (P : peek_record kn g acc lines false r t = (let x := process_input kn g acc lines false r t in let ret := (t_count t <? t_count x)%nat in (ret, Some (if ret then nth (t_head x) (t_buf x) 0 else input_none_byte), if t_lead t =? 0 then set_count (t_count t) x else set_lead (t_lead t) (set_count (t_count t) x)))) by (destruct r; [reflexivity|reflexivity|destruct Hr|destruct Hr]).
      rewrite P in H. cbv zeta in H. cbn [fst] in H. destruct (t_count t <? t_count (process_input kn g acc lines false r t))%nat eqn:E; [|discriminate]. split; [lia|exact H]. }
    assert (Y : forall r, (match r with RKey _ | RMouse _ => True | _ => False end) -> snd (process_record kn g acc lines ks false r (set_pend p t)) = process_input kn g acc lines false r (set_pend p t)) by (intros [| | |] Hr; [cbn [process_record snd]; apply F|reflexivity|destruct Hr|destruct Hr]).
    assert (Z : forall r, (match r with RKey _ | RMouse _ => True | _ => False end) -> let x := process_input kn g acc lines false r (set_pend p t) in let y := process_input kn g acc lines false r t in t_head x = t_head y /\ t_buf x = t_buf y /\ t_count x = t_count y).
    { intros r0 _. cbv zeta. rewrite pend_input. auto. }
    assert (W : (match r with RKey _ | RMouse _ => True | _ => False end) -> fst (let '(ret, c, t0) := peek_record kn g acc lines false r t in (if ret then match c with Some c0 => translate_special c0 | None => Undefined end else None_, t0)) = Byte b ->
      fst (if (0 <? t_count (snd (process_record kn g acc lines ks false r (set_pend p t))))%nat then let '(c, t0) := pop (snd (process_record kn g acc lines ks false r (set_pend p t))) in (translate_special c, t0) else (None_, snd (process_record kn g acc lines ks false r (set_pend p t)))) = Byte b).
    { intros Hr H. destruct (X r Hr H) as [X1 X2]. destruct (Z r Hr) as (Z1 & Z2 & Z3). rewrite (Y r Hr). rewrite Z3. replace (0 <? t_count (process_input kn g acc lines false r t))%nat with true by lia. unfold pop. rewrite Z1, Z2, Z3. destruct (t_count (process_input kn g acc lines false r t)); [lia|]. exact X2. }
    destruct r as [k|m|ch|]; [exact (W Logic.I)|exact (W Logic.I)|discriminate|discriminate].
Qed.
Example input_kept_in_order_ex :
  let q := [RKey (mkK true 55357 0 0 no_flags); RKey (mkK false 55357 0 0 no_flags); RSize true; RKey (mkK true 56832 0 0 no_flags); RKey (mkK true 97 65 30 no_flags)] in
  paired false q /\ fst (calls letter_name the_settings (fun _ => true) 3 None [OAvailable; OPeek; OSelect; ORead false; OAvailable; OPeek; OSelect; ORead true; ORead false; OPeek; ORead false] (fresh (repeat 7 16) 13, q)) = [Byte 240; Byte 159] /\
  fst (calls letter_name the_settings (fun _ => true) 3 None (straight 85) (fresh (repeat 7 16) 13, q)) = map Byte [240; 159; 152; 128; 97].
Proof.
  split; [|vm_compute; auto]. apply p_first; [unfold is_lead; cbn; lia|]. apply p_up; [reflexivity|]. apply p_size. apply p_second; [reflexivity|unfold second_half; cbn; lia|]. apply p_key; [unfold is_lead; cbn; lia|apply p_nil].
Qed.
Example mouse_kept_in_order_ex :
  let q := [RMouse (mkMs 10 3 true false 0 false false false false); RKey (mkK true 97 65 30 no_flags)] in
  Forall keeps [OSelect; ORead false; OSelect; ORead false] /\ fst (calls letter_name the_settings (fun _ => true) 3 None (straight 34) (fresh (repeat 7 16) 13, q)) = map Byte (csi "$10;3L" ++ [97]).
Proof. split; [repeat constructor|vm_compute; reflexivity]. Qed.
Example peek_then_read_ex :
  let t := mkT (repeat 0 16) 5 0 0 (false, false) [RKey (mkK true 0 VK_UP 72 no_flags)] in fst (peek letter_name the_settings (fun _ => false) 3 false t) = Byte 27 /\ fst (read letter_name the_settings (fun _ => false) 3 None false false t) = Byte 27.
Proof. vm_compute. auto. Qed.
Print Assumptions input_kept_in_order.
Print Assumptions mouse_kept_in_order.
Print Assumptions peek_then_read.
(** a click that available looks at is lost: the button is then taken to have been down already *)
Theorem looked_at_click_refuted : exists q, fst (calls letter_name the_settings (fun _ => true) 3 None (straight 17) (fresh (repeat 0 16) 0, q)) = map Byte (csi "$10;3L") /\
  fst (calls letter_name the_settings (fun _ => true) 3 None (OAvailable :: straight 17) (fresh (repeat 0 16) 0, q)) = [].
Proof. exists [RMouse (mkMs 10 3 true false 0 false false false false)]. vm_compute. auto. Qed.
(** peek, when the window was resized, gives what happens to be in an unset variable *)
Theorem peek_resize_refuted : exists q, let s := snd (calls letter_name the_settings (fun _ => true) 3 None [OAvailable] (fresh (repeat 0 16) 0, q)) in fst (peek letter_name the_settings (fun _ => true) 3 false (fst s)) = Undefined.
Proof. exists [RSize true]. vm_compute. reflexivity. Qed.

(** ** C88: typed text *)
(** text that is typed, with the keys going up in between, is read as its UTF-8 *)
Theorem typed_text_read : forall kn g acc lines ks buf head text q n, is_buffer buf head -> harmless ks -> Forall printable text -> types g (flat_map utf16 text) q -> (17 * length q <= n)%nat ->
  fst (calls kn g acc lines ks (straight n) (fresh buf head, q)) = map Byte (flat_map utf8 text).
Proof.
  intros kn g acc lines ks buf head text q n [Hb Hh] Hk Hp Ht Hn. rewrite straight_out; [|split; [exact Hb|]; split; [exact Hh|cbn; unfold size; lia]|exact Hn]. unfold out, fresh. cbn [t_pend t_lead t_prev app]. rewrite conts_nil by reflexivity. cbn [vis flat_map app]. exact (proj1 (text_outs kn g acc lines ks Hk _ q (false, false) Ht) text eq_refl Hp).
Qed.
(** keys and clicks are read as what they send, one after the other; none is cut short by the size of the buffer *)
Theorem keys_read_in_order : forall kn g acc lines ks buf head q n, is_buffer buf head -> harmless ks -> g_raw_esc g = false -> Forall (item g) q -> (17 * length q <= n)%nat ->
  fst (calls kn g acc lines ks (straight n) (fresh buf head, q)) = map as_read (concat (sents kn g acc lines (false, false) q)).
Proof.
  intros kn g acc lines ks buf head q n [Hb Hh] Hk Hg Hq Hn. rewrite straight_out; [|split; [exact Hb|]; split; [exact Hh|cbn; unfold size; lia]|exact Hn]. unfold out, fresh. cbn [t_pend t_lead t_prev app]. rewrite conts_nil by reflexivity. cbn [vis flat_map app]. exact (outs_items kn g acc lines ks Hk q Hg Hq (false, false)).
Qed.
Example typed_text_read_ex :
  let q := [RKey (mkK true 97 65 30 no_flags); RKey (mkK false 97 65 30 no_flags); RKey (mkK true 32 VK_SPACE 57 no_flags); RKey (mkK true 8364 69 18 (mkF false true false false true false)); RKey (mkK true 55357 231 0 no_flags); RKey (mkK true 56832 231 0 no_flags)] in
  let text := [97; 32; 8364; 128512] in Forall printable text /\ types the_settings (flat_map utf16 text) q /\ fst (calls letter_name the_settings (fun _ => true) 3 None (straight 102) (fresh (repeat 7 16) 13, q)) = map Byte (flat_map utf8 text).
Proof.
  split; [repeat (apply Forall_cons; [unfold printable, scalar; lia|]); apply Forall_nil|]. split; [|vm_compute; reflexivity].
  apply t_key; [split; [reflexivity|]; split; [reflexivity|]; left; split; [unfold text_vk; cbn; lia|left; split; reflexivity]|]. apply t_silent; [reflexivity|]. apply t_key; [split; [reflexivity|]; split; [reflexivity|]; right; split; [reflexivity|]; split; reflexivity|]. apply t_key; [split; [reflexivity|]; split; [reflexivity|]; left; split; [unfold text_vk; cbn; lia|right; split; [reflexivity|left; reflexivity]]|].
  apply t_key; [split; [reflexivity|]; split; [reflexivity|]; left; split; [unfold text_vk; cbn; lia|left; split; reflexivity]|]. apply t_key; [split; [reflexivity|]; split; [reflexivity|]; left; split; [unfold text_vk; cbn; lia|left; split; reflexivity]|]. apply t_nil.
Qed.
Print Assumptions typed_text_read.
Print Assumptions keys_read_in_order.
