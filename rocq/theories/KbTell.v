(** Special keys and letters with Ctrl are told apart; special keys have their names. *)
From Coq Require Import Ascii String.
From Verif Require Import Base UtfSpec KbSpec KbBuf KbKeys.
Open Scope N_scope.

(** ** Tables *)
Definition bools := [false; true].
Definition all_flags : list flags := flat_map (fun a => flat_map (fun b => flat_map (fun c => flat_map (fun d => flat_map (fun e => map (mkF a b c d e) bools) bools) bools) bools) bools) bools.
Definition all_settings : list settings := flat_map (fun a => flat_map (fun b => flat_map (fun c => flat_map (fun d => map (mkSet a b c d) bools) bools) bools) bools) bools.
Lemma in_bools b : In b bools. Proof. destruct b; cbn; auto. Qed.
Lemma in_flags f : In f all_flags.
Proof. destruct f as [a b c d e h]. unfold all_flags. repeat (apply in_flat_map; eexists; split; [apply in_bools|]). apply in_map, in_bools. Qed.
Lemma in_settings g : In g all_settings.
Proof. destruct g as [a b c d e]. unfold all_settings. repeat (apply in_flat_map; eexists; split; [apply in_bools|]). apply in_map, in_bools. Qed.
Definition special_vks : list N := editing ++ function_keys ++ [VK_BACK; VK_RETURN; VK_TAB; VK_SPACE].
Definition letters : list N := map N.of_nat (seq 65 26).
Definition char_of (vk : N) (f : flags) : N :=
  if vk =? VK_BACK then if ctrl f then 127 else 8 else if vk =? VK_RETURN then if ctrl f then 10 else 13 else if vk =? VK_TAB then 9 else if vk =? VK_SPACE then 32 else 0.
Lemma special_shape k : special k -> k = mkK true (char_of (k_vk k) (k_flags k)) (k_vk k) (k_sc k) (k_flags k) /\ In (k_vk k) special_vks.
Proof.
  destruct k as [d c vk sc f]. cbn [k_down k_char k_vk k_sc k_flags]. intros [H1 H]. cbn [k_down k_char k_vk k_sc k_flags] in *. subst d. unfold special_vks.
  destruct H as [[H ->]|[[-> ->]|[[-> ->]|[[-> ->]|[-> ->]]]]]; (split; [|rewrite !in_app_iff; cbn; tauto]); try reflexivity.
  f_equal. symmetry. destruct H as [H|H]; cbn [In editing function_keys] in H; repeat (destruct H as [<- | H]; [reflexivity|]); destruct H.
Qed.
Lemma letter_shape k : ctrl_letter k -> k = mkK true (k_vk k - 64) (k_vk k) (k_sc k) (k_flags k) /\ In (k_vk k) letters /\ ctrl (k_flags k) = true.
Proof.
  destruct k as [d c vk sc f]. intros (H1 & H2 & H3 & H4). cbn [k_down k_char k_vk k_sc k_flags] in *. subst. split; [reflexivity|]. split; [|exact H3]. unfold letters. apply in_map_iff. exists (N.to_nat vk). split; [apply N2Nat.id|]. apply in_seq. lia.
Qed.
(** the modifiers as flags *)
Definition flags_of (m : bool * bool * bool) : flags := mkF (fst (fst m)) (snd (fst m)) false false (snd m) false.
Definition mods_of (f : flags) : bool * bool * bool := (f_shift f, ctrl f, alt f).
Definition canon_key (letter : bool) (vk : N) (m : bool * bool * bool) : key := let f := flags_of m in mkK true (if letter then vk - 64 else char_of vk f) vk 0 f.
Definition code (g : settings) (letter : bool) (vk : N) (m : bool * bool * bool) : bytes := act_bytes (process_key (fun v _ => Some v) g false true (canon_key letter vk m)).
Definition act_eqb (a b : act) : bool := match a, b with ANone, ANone => true | ASeq s, ASeq t => eqb s t | AVals s, AVals t => eqb s t | AExit, AExit => true | _, _ => false end.
Lemma eqb_eq a : forall b, eqb a b = true -> a = b.
Proof. induction a as [|x a IH]; intros [|y b] H; try reflexivity; try discriminate. cbn [eqb] in H. apply andb_prop in H. destruct H as [H1 H2]. apply N.eqb_eq in H1. rewrite H1, (IH b H2). reflexivity. Qed.
Lemma eqb_refl a : eqb a a = true. Proof. induction a as [|x a IH]; [reflexivity|]. cbn [eqb]. rewrite N.eqb_refl. exact IH. Qed.
Definition no_altgr (g : settings) : bool := negb (g_altgr g).
Definition all_mods : list (bool * bool * bool) := flat_map (fun a => flat_map (fun b => map (fun c => (a, b, c)) bools) bools) bools.
Lemma in_mods m : In m all_mods.
Proof. destruct m as [[a b] c]. unfold all_mods. repeat (apply in_flat_map; eexists; split; [apply in_bools|]). apply in_map_iff. exists c. split; [reflexivity|apply in_bools]. Qed.
Section T.
Variable o : option N.
Variable sc : N.
Lemma special_table : forallb (fun g => g_altgr g || forallb (fun vk => forallb (fun f => eqb (act_bytes (process_key (fun _ _ => o) g false true (mkK true (char_of vk f) vk sc f))) (code g false vk (mods_of f))) all_flags) special_vks) all_settings = true.
Proof. vm_compute. reflexivity. Qed.
End T.
Lemma letter_table : forallb (fun g => g_altgr g || negb (g_diff g) || forallb (fun vk => forallb (fun f => negb (ctrl f) || eqb (act_bytes (process_key (fun v _ => Some v) g false true (mkK true (vk - 64) vk 0 f))) (code g true vk (mods_of f))) all_flags) letters) all_settings = true.
Proof. vm_compute. reflexivity. Qed.
(** GetKeyNameTextW is asked about the key itself *)
Lemma key_name_ext kn kn' g req e k sc' : kn (k_vk k) (k_sc k) = kn' (k_vk k) sc' -> process_key kn g req e k = process_key kn' g req e (mkK (k_down k) (k_char k) (k_vk k) sc' (k_flags k)).
Proof.
  intro H. unfold process_key. cbn [k_down k_char k_vk k_sc k_flags]. assert (B : translate_ctrl_bracket kn g (k_vk k) (k_sc k) = translate_ctrl_bracket kn' g (k_vk k) sc') by (unfold translate_ctrl_bracket; rewrite H; reflexivity).
  assert (R : forall c f, process_rest kn g c (k_vk k) (k_sc k) f = process_rest kn' g c (k_vk k) sc' f) by (intros c f; unfold process_rest, ctrl_code; rewrite B; reflexivity).
  destruct (altgr_sub g (k_char k) (k_flags k)) as [c f]. cbv zeta. rewrite R. reflexivity.
Qed.
Lemma special_code kn g k : g_altgr g = false -> special k -> act_bytes (process_key kn g false true k) = code g false (k_vk k) (snd (which k)).
Proof.
  intros Hg Hs. destruct (special_shape k Hs) as [E Hi]. rewrite (key_name_ext kn (fun _ _ => kn (k_vk k) (k_sc k)) g false true k 0 eq_refl). rewrite E. cbn [k_down k_char k_vk k_sc k_flags]. rewrite E. cbn [k_vk k_flags which snd]. pose proof (special_table (kn (k_vk k) (k_sc k)) 0) as A. rewrite forallb_forall in A. specialize (A g (in_settings g)). rewrite Hg in A. cbn [orb] in A.
  rewrite forallb_forall in A. specialize (A _ Hi). rewrite forallb_forall in A. specialize (A _ (in_flags (k_flags k))). apply eqb_eq in A. exact A.
Qed.
Lemma letter_code kn g k : g_altgr g = false -> g_diff g = true -> letters_named kn -> ctrl_letter k -> act_bytes (process_key kn g false true k) = code g true (k_vk k) (snd (which k)).
Proof.
  intros Hg Hdf Hn Hs. destruct (letter_shape k Hs) as (E & Hi & Hc). rewrite (key_name_ext kn (fun v _ => Some v) g false true k 0) by (apply Hn, Hs). destruct Hs as (Hd & _ & _ & Hch). rewrite Hd, Hch. pose proof letter_table as A. rewrite forallb_forall in A. specialize (A g (in_settings g)). rewrite Hg, Hdf in A. cbn [orb negb] in A.
  rewrite forallb_forall in A. specialize (A _ Hi). rewrite forallb_forall in A. specialize (A _ (in_flags (k_flags k))). rewrite Hc in A. cbn [negb orb] in A. apply eqb_eq in A. exact A.
Qed.
(** ** The buffer has what they send *)
Definition act_okb (a : act) : bool := (length (act_bytes a) <=? size)%nat && match a with ASeq s => nonzero s | AVals l => forallb (fun v => v <? 128) l | _ => true end.
Lemma act_okb_ok a : act_okb a = true -> act_ok a.
Proof.
  intro H. apply andb_prop in H. destruct H as [H1 H2]. split; [lia|]. destruct a as [|s|l|]; try exact Logic.I.
  - unfold nonzero in H2. rewrite forallb_forall in H2. apply Forall_forall. intros b Hb. specialize (H2 b Hb). lia.
  - rewrite forallb_forall in H2. apply Forall_forall. intros b Hb. specialize (H2 b Hb). unfold half. lia.
Qed.
Section T2.
Variable o : option N.
Variable sc : N.
Lemma special_ok_table : forallb (fun g => forallb (fun vk => forallb (fun f => act_okb (process_key (fun _ _ => o) g false true (mkK true (char_of vk f) vk sc f))) all_flags) special_vks) all_settings = true.
Proof. vm_compute. reflexivity. Qed.
End T2.
Lemma letter_ok_table : forallb (fun g => forallb (fun vk => forallb (fun f => act_okb (process_key (fun v _ => Some v) g false true (mkK true (vk - 64) vk 0 f))) all_flags) letters) all_settings = true.
Proof. vm_compute. reflexivity. Qed.
Lemma sent_acts kn g k : act_ok (process_key kn g false true k) -> sent kn g k = act_bytes (process_key kn g false true k).
Proof.
  intro Ho. unfold sent, sent_by, process_input. cbn [t_count]. change (0 =? 0)%nat with true. set (t := mkT (repeat 0 size) 0 0 0 (false, false) []). assert (Hw : wf t) by (split; [reflexivity|cbn; unfold size; lia]). destruct (apply_act_ok _ t Hw Ho eq_refl eq_refl) as (A & B & _). rewrite contents_ok by exact A. exact B.
Qed.
Lemma special_sent kn g k : special k -> sent kn g k = act_bytes (process_key kn g false true k).
Proof.
  intro Hs. apply sent_acts. destruct (special_shape k Hs) as [E Hi]. rewrite (key_name_ext kn (fun _ _ => kn (k_vk k) (k_sc k)) g false true k 0 eq_refl). pose proof (special_ok_table (kn (k_vk k) (k_sc k)) 0) as A. rewrite forallb_forall in A. specialize (A g (in_settings g)). rewrite forallb_forall in A. specialize (A _ Hi). rewrite forallb_forall in A. specialize (A _ (in_flags (k_flags k))). apply act_okb_ok in A.
  replace (k_down k) with true by (symmetry; apply Hs). replace (k_char k) with (char_of (k_vk k) (k_flags k)) by (rewrite E at 3; reflexivity). exact A.
Qed.
Lemma letter_sent kn g k : letters_named kn -> ctrl_letter k -> sent kn g k = act_bytes (process_key kn g false true k).
Proof.
  intros Hn Hs. apply sent_acts. destruct (letter_shape k Hs) as (E & Hi & _). rewrite (key_name_ext kn (fun v _ => Some v) g false true k 0) by (apply Hn, Hs). destruct Hs as (Hd & _ & _ & Hch). rewrite Hd, Hch. pose proof letter_ok_table as A. rewrite forallb_forall in A. specialize (A g (in_settings g)). rewrite forallb_forall in A. specialize (A _ Hi). rewrite forallb_forall in A. specialize (A _ (in_flags (k_flags k))). apply act_okb_ok in A. exact A.
Qed.
(** ** Told apart *)
Definition all_codes (g : settings) (letters_too : bool) : list (bytes * (N * (bool * bool * bool))) :=
  flat_map (fun vk => map (fun m => (code g false vk m, (vk, m))) all_mods) special_vks ++ (if letters_too then flat_map (fun vk => flat_map (fun m : bool * bool * bool => if snd (fst m) then [(code g true vk m, (vk, m))] else []) all_mods) letters else []).
Definition which_eqb (a b : N * (bool * bool * bool)) : bool := (fst a =? fst b) && Bool.eqb (fst (fst (snd a))) (fst (fst (snd b))) && Bool.eqb (snd (fst (snd a))) (snd (fst (snd b))) && Bool.eqb (snd (snd a)) (snd (snd b)).
Lemma which_eqb_eq a b : which_eqb a b = true -> a = b.
Proof.
  destruct a as [v [[x y] z]], b as [v' [[x' y'] z']]. unfold which_eqb. cbn [fst snd]. intro H. apply andb_prop in H. destruct H as [H H4]. apply andb_prop in H. destruct H as [H H3]. apply andb_prop in H. destruct H as [H1 H2]. apply N.eqb_eq in H1. apply eqb_prop in H2, H3, H4. subst. reflexivity.
Qed.
Fixpoint apart (l : list (bytes * (N * (bool * bool * bool)))) : bool :=
  match l with [] => true | (s, w) :: l' => match s with [] => true | _ => forallb (fun x => negb (eqb s (fst x)) || which_eqb w (snd x)) l' end && apart l' end.
Lemma apart_ok l : apart l = true -> forall s w w', In (s, w) l -> In (s, w') l -> s <> [] -> w = w'.
Proof.
  induction l as [|[s0 w0] l IH]; intros H s w w' Hi Hj Hn; [destruct Hi|]. cbn [apart] in H. apply andb_prop in H. destruct H as [H1 H2].
  assert (X : forall v, In (s0, v) l -> s0 <> [] -> w0 = v). { intros v Hv H0. destruct s0; [congruence|]. rewrite forallb_forall in H1. specialize (H1 _ Hv). cbn [fst snd] in H1. rewrite eqb_refl in H1. cbn [negb orb] in H1. apply which_eqb_eq, H1. }
  destruct Hi as [Hi|Hi], Hj as [Hj|Hj]; [congruence| | |exact (IH H2 s w w' Hi Hj Hn)].
  - injection Hi as -> ->. exact (X _ Hj Hn).
  - injection Hj as -> ->. symmetry. exact (X _ Hi Hn).
Qed.
Lemma apart_special : forallb (fun g => g_altgr g || apart (all_codes g false)) all_settings = true.
Proof. vm_compute. reflexivity. Qed.
Lemma apart_letters : forallb (fun g => g_altgr g || negb (g_diff g) || apart (all_codes g true)) all_settings = true.
Proof. vm_compute. reflexivity. Qed.
Lemma special_in kn g b k : g_altgr g = false -> special k -> In (act_bytes (process_key kn g false true k), which k) (all_codes g b).
Proof.
  intros Hg Hs. rewrite special_code by assumption. unfold all_codes. apply in_or_app. left. apply in_flat_map. exists (k_vk k). split; [apply special_shape, Hs|]. apply in_map_iff. exists (snd (which k)). split; [reflexivity|apply in_mods].
Qed.
Lemma letter_in kn g k : g_altgr g = false -> g_diff g = true -> letters_named kn -> ctrl_letter k -> In (act_bytes (process_key kn g false true k), which k) (all_codes g true).
Proof.
  intros Hg Hdf Hn Hs. rewrite letter_code by assumption. unfold all_codes. apply in_or_app. right. apply in_flat_map. exists (k_vk k). destruct (letter_shape k Hs) as (_ & Hi & Hc). split; [exact Hi|]. apply in_flat_map. exists (snd (which k)). split; [apply in_mods|]. unfold which. cbn [snd fst]. rewrite Hc. left. reflexivity.
Qed.
(** ** Names *)
Lemma prefix_app a : forall b, is_prefix a b = true -> exists c, b = a ++ c.
Proof. induction a as [|x a IH]; intros b H; [exists b; reflexivity|]. destruct b as [|y b]; [discriminate|]. cbn [is_prefix] in H. apply andb_prop in H. destruct H as [H1 H2]. apply N.eqb_eq in H1. destruct (IH b H2) as [c ->]. exists c. rewrite H1. reflexivity. Qed.
Lemma prefix_refl a : is_prefix a a = true. Proof. induction a as [|x a IH]; [reflexivity|]. cbn [is_prefix]. rewrite N.eqb_refl. exact IH. Qed.
Section Names.
Variable bucket : bytes -> bytes -> bool.
Hypothesis Hb : forall s, bucket s s = true.
Lemma find_at s name m : Forall (fun x => whole (fst x)) m -> whole s -> assoc s m = Some name -> map_find bucket s m = Some (s, name).
Proof.
  intros Hm Hw. unfold map_find. induction m as [|[k v] m IH]; [discriminate|]. inversion Hm as [|? ? Hk Hm']; subst. cbn [assoc find fst]. cbn [fst] in Hk. destruct (eqb s k) eqn:E.
  - apply eqb_eq in E. subst k. intro H. injection H as ->. rewrite Hb, prefix_refl. reflexivity.
  - intro H. destruct (bucket s k && is_prefix s k) eqn:B; [|exact (IH Hm' H)]. exfalso. apply andb_prop in B. destruct B as [_ B]. destruct (prefix_app _ _ B) as [c Ec]. rewrite (whole_prefix s k c Hw Hk Ec), app_nil_r in Ec. subst k. rewrite eqb_refl in E. discriminate.
Qed.
Lemma find_past s m n t : Forall (fun x => whole (fst x)) m -> whole s -> (length s < n)%nat -> (n <= length (s ++ t))%nat -> map_find bucket (firstn n (s ++ t)) m = None.
Proof.
  clear Hb. intros Hm Hw Hn Ht. unfold map_find. induction m as [|[k v] m IH]; [reflexivity|]. inversion Hm as [|? ? Hk Hm']; subst. cbn [find fst] in *. destruct (bucket (firstn n (s ++ t)) k && is_prefix (firstn n (s ++ t)) k) eqn:B; [|exact (IH Hm')].
  exfalso. apply andb_prop in B. destruct B as [_ B]. destruct (prefix_app _ _ B) as [c Ec]. rewrite firstn_app, firstn_all2 in Ec by lia. rewrite <- app_assoc in Ec. pose proof (whole_prefix s k _ Hw Hk Ec) as Z. apply app_eq_nil in Z. destruct Z as [Z _]. rewrite app_length in Ht. pose proof (f_equal (@length N) Z) as L. rewrite firstn_length in L. cbn in L. lia.
Qed.
Lemma find_longest_whole s name m t : Forall (fun x => whole (fst x)) m -> whole s -> assoc s m = Some name -> forall n, (length s <= n)%nat -> (n <= length (s ++ t))%nat -> find_longest bucket n (s ++ t) m = Some (length s, name).
Proof.
  intros Hm Hw Ha. induction n as [|n IH]; intros Hn Ht; [exfalso; destruct s; [exact (whole_cons _ Hw eq_refl)|cbn in Hn; lia]|]. cbn [find_longest]. destruct (Nat.eq_dec (length s) (S n)) as [E|E].
  - rewrite firstn_app, <- E, firstn_all, Nat.sub_diag, firstn_O, app_nil_r. rewrite (find_at s name m Hm Hw Ha). reflexivity.
  - rewrite find_past by (assumption || lia). apply IH; lia.
Qed.
End Names.
Definition wholeb (s : bytes) : bool := seq_okb s && tails_in s && match s with [] => false | _ => true end.
Lemma wholeb_ok s : wholeb s = true -> whole s /\ (length s <= size)%nat.
Proof. intro H. apply andb_prop in H. destruct H as [H Hn]. destruct (seq_ok_b s H) as ([->|A] & B & _); [discriminate|]. auto. Qed.
Lemma names_whole g : Forall (fun x => whole (fst x)) (key_names g false).
Proof.
  assert (A : forallb (fun g => forallb (fun x => wholeb (fst x)) (key_names g false)) all_settings = true) by (vm_compute; reflexivity). rewrite forallb_forall in A. specialize (A g (in_settings g)). rewrite forallb_forall in A. apply Forall_forall. intros x Hx. apply wholeb_ok, A, Hx.
Qed.
Definition mods_name (m : bool * bool * bool) : bytes := (if snd m then str "A-" else []) ++ (if snd (fst m) then str "C-" else []) ++ (if fst (fst m) then str "S-" else []).
Definition has_nameb (g : settings) (vk : N) (m : bool * bool * bool) : bool :=
  negb (((vk =? VK_TAB) || (vk =? VK_SPACE)) && snd m) && negb (which_eqb (vk, m) (115, (false, false, true)) && g_altf4 g)
  && negb (which_eqb (vk, m) (VK_RETURN, (false, false, false)) && negb (g_diff g) && negb (g_windows g)) && negb (which_eqb (vk, m) (VK_BACK, (false, false, true)) && negb (g_diff g)).
Definition name_check (names : names) (g : settings) (vk : N) (m : bool * bool * bool) : bool :=
  negb (has_nameb g vk m) || (wholeb (code g false vk m) && match assoc (code g false vk m) names with Some n => eqb n (mods_name m ++ name_of_vk vk) | None => false end).
Definition names_check (names : names) (g : settings) : bool := forallb (fun vk => forallb (name_check names g vk) all_mods) special_vks.
Lemma named_table : forallb (fun g => g_altgr g || names_check (key_names g false) g) all_settings = true.
Proof. vm_compute. reflexivity. Qed.
Lemma name_checked names g vk m : names_check names g = true -> In vk special_vks -> has_nameb g vk m = true -> wholeb (code g false vk m) = true /\ assoc (code g false vk m) names = Some (mods_name m ++ name_of_vk vk).
Proof.
  unfold names_check. intros A Hv Hm. rewrite forallb_forall in A. specialize (A vk Hv). rewrite forallb_forall in A. specialize (A m (in_mods m)). unfold name_check in A. rewrite Hm in A. cbn [negb orb] in A. apply andb_prop in A. destruct A as [A B]. split; [exact A|]. destruct (assoc _ _) as [n|]; [|discriminate]. apply eqb_eq in B. rewrite B. reflexivity.
Qed.
Lemma has_name_b g k : has_name g k -> has_nameb g (k_vk k) (snd (which k)) = true.
Proof.
  intros (H1 & H2 & H3 & H4). unfold has_nameb. cbn [which snd fst] in *.
  assert (A : ((k_vk k =? VK_TAB) || (k_vk k =? VK_SPACE)) && alt (k_flags k) = false). { destruct (alt (k_flags k)); [|apply andb_false_r]. destruct ((k_vk k =? VK_TAB) || (k_vk k =? VK_SPACE)) eqn:E; [|reflexivity]. exfalso. apply H1. split; [|reflexivity]. apply orb_prop in E. destruct E as [E|E]; apply N.eqb_eq in E; rewrite E; cbn; auto. }
  rewrite A. cbn [negb andb]. clear A H1.
  assert (A : which_eqb (k_vk k, (f_shift (k_flags k), ctrl (k_flags k), alt (k_flags k))) (115, (false, false, true)) && g_altf4 g = false).
  { apply andb_false_iff. destruct (which_eqb _ _) eqn:E; [right|left; reflexivity]. apply which_eqb_eq in E. apply not_true_is_false. intro G. apply H2. split; [congruence|]. split; [exact E|exact G]. }
  rewrite A. clear A H2. assert (A : which_eqb (k_vk k, (f_shift (k_flags k), ctrl (k_flags k), alt (k_flags k))) (VK_RETURN, (false, false, false)) && negb (g_diff g) && negb (g_windows g) = false).
  { rewrite <- andb_assoc. apply andb_false_iff. destruct (which_eqb _ _) eqn:E; [right|left; reflexivity]. apply which_eqb_eq in E. apply not_true_is_false. intro G. apply andb_prop in G. destruct G as [G1 G2]. apply negb_true_iff in G1, G2. apply H3. split; [congruence|]. split; [congruence|]. split; assumption. }
  rewrite A. clear A H3. assert (A : which_eqb (k_vk k, (f_shift (k_flags k), ctrl (k_flags k), alt (k_flags k))) (VK_BACK, (false, false, true)) && negb (g_diff g) = false).
  { apply andb_false_iff. destruct (which_eqb _ _) eqn:E; [right|left; reflexivity]. apply which_eqb_eq in E. apply not_true_is_false. intro G. apply negb_true_iff in G. apply H4. split; [congruence|]. split; [congruence|exact G]. }
  rewrite A. reflexivity.
Qed.
Lemma special_named kn g k : g_altgr g = false -> special k -> has_name g k -> let s := act_bytes (process_key kn g false true k) in whole s /\ (length s <= size)%nat /\ assoc s (key_names g false) = Some (full_name k).
Proof.
  intros Hg Hs Hn. cbv zeta. rewrite special_code by assumption. pose proof named_table as A. rewrite forallb_forall in A. specialize (A g (in_settings g)). cbv beta in A. apply orb_prop in A. destruct A as [A|A]; [congruence|].
  destruct (name_checked _ g (k_vk k) (snd (which k)) A (proj2 (special_shape k Hs)) (has_name_b g k Hn)) as [B C]. destruct (wholeb_ok _ B) as [A1 A2]. split; [exact A1|]. split; [exact A2|]. rewrite C. unfold full_name, mods_name, which. cbn [snd fst]. rewrite <- !app_assoc. reflexivity.
Qed.
