(** Letters with Ctrl that send their own sequences are named. *)
From Coq Require Import Ascii String.
From Verif Require Import Base UtfSpec KbSpec KbBuf KbKeys KbTell.
Open Scope N_scope.

Definition ext (m : nat) (vk : N) : bytes := csi "27;" ++ dec (N.of_nat m) ++ [59] ++ dec vk ++ [126].
Definition xmod (m : bool * bool * bool) : nat := xterm_modifier (flags_of m).
Definition own (vk : N) (m : bool * bool * bool) : bool := snd (fst m) && (fst (fst m) || (vk =? 72) || (vk =? 73) || (vk =? 77)).
Lemma own_table : forallb (fun g => g_altgr g || negb (g_diff g) || (fun names => forallb (fun vk => forallb (fun m => negb (own vk m) || (eqb (code g true vk m) (ext (xmod m) vk) && wholeb (code g true vk m) && match assoc (code g true vk m) names with Some _ => false | None => true end)) all_mods) letters) (key_names g false)) all_settings = true.
Proof. vm_compute. reflexivity. Qed.
Lemma own_code g vk m : g_altgr g = false -> g_diff g = true -> In vk letters -> own vk m = true -> code g true vk m = ext (xmod m) vk /\ wholeb (code g true vk m) = true /\ assoc (code g true vk m) (key_names g false) = None.
Proof.
  intros Hg Hd Hv Ho. pose proof own_table as A. rewrite forallb_forall in A. specialize (A g (in_settings g)). cbv beta in A. apply orb_prop in A. destruct A as [A|A]; [rewrite Hg, Hd in A; discriminate|]. rewrite forallb_forall in A. specialize (A vk Hv). rewrite forallb_forall in A. specialize (A m (in_mods m)). cbv beta in A. apply orb_prop in A. destruct A as [A|A]; [rewrite Ho in A; discriminate|].
  apply andb_prop in A. destruct A as [A C]. apply andb_prop in A. destruct A as [A B]. apply eqb_eq in A. split; [exact A|]. split; [exact B|]. destruct (assoc _ _); [discriminate|reflexivity].
Qed.
Section E.
Variable bucket : bytes -> bytes -> bool.
Variable vk_name : N -> option bytes.
Hypothesis Hb : forall a b, bucket a b = true -> is_prefix a b = true -> a = b.
Lemma find_none s m t : Forall (fun x => whole (fst x)) m -> whole s -> assoc s m = None -> forall n, (n <= length (s ++ t))%nat -> find_longest bucket n (s ++ t) m = None.
Proof.
  intros Hm Hw Ha. induction n as [|n IH]; intro Hn; [reflexivity|]. cbn [find_longest]. rewrite IH by lia. destruct (Nat.lt_ge_cases (length s) (S n)) as [L|L]; [rewrite find_past by assumption; reflexivity|].
  replace (firstn (S n) (s ++ t)) with (firstn (S n) s) by (rewrite firstn_app; replace (S n - length s)%nat with O by lia; rewrite firstn_O, app_nil_r; reflexivity).
  assert (X : map_find bucket (firstn (S n) s) m = None); [|rewrite X; reflexivity]. unfold map_find. clear IH. induction m as [|[k v] m IHm]; [reflexivity|]. inversion Hm as [|? ? Hk Hm']; subst. cbn [assoc] in Ha. destruct (eqb s k) eqn:E; [discriminate|]. cbn [find fst] in *.
  destruct (bucket (firstn (S n) s) k && is_prefix (firstn (S n) s) k) eqn:B; [|exact (IHm Hm' Ha)]. exfalso. apply andb_prop in B. destruct B as [B1 B2]. pose proof (Hb _ _ B1 B2) as Ek. rewrite <- Ek in Hk. pose proof (whole_prefix (firstn (S n) s) s (skipn (S n) s) Hk Hw ltac:(symmetry; apply firstn_skipn)) as Z. assert (Es : s = k) by (rewrite <- Ek, <- (firstn_skipn (S n) s) at 1; rewrite Z, app_nil_r; reflexivity). rewrite Es, eqb_refl in E. discriminate.
Qed.
Lemma ext_find m vk t : In vk letters -> In m (seq 5 4) -> find_extended vk_name (ext m vk ++ t) = match vk_name vk with Some nm => Some (length (ext m vk), nth (m - 1) c_mod_names [] ++ nm) | None => None end.
Proof. intros Hv Hm. cbn in Hv, Hm. repeat (destruct Hm as [<- | Hm]; [repeat (destruct Hv as [<- | Hv]; [reflexivity|]); destruct Hv|]). destruct Hm. Qed.
Lemma own_named g k t nm kn : g_altgr g = false -> g_diff g = true -> letters_named kn -> ctrl_letter k -> own (k_vk k) (snd (which k)) = true -> vk_name (k_vk k) = Some nm ->
  let s := act_bytes (process_key kn g false true k) in find_key_name bucket vk_name g false (s ++ t) = Some (length s, mods_name (snd (which k)) ++ nm).
Proof.
  intros Hg Hd Hn Hk Ho Hv. cbv zeta. rewrite letter_code by assumption. pose proof (letter_shape k Hk) as (_ & Hi & Hc). destruct (own_code g (k_vk k) (snd (which k)) Hg Hd Hi Ho) as (A & B & C). destruct (wholeb_ok _ B) as [W _].
  unfold find_key_name. destruct (code g true (k_vk k) (snd (which k)) ++ t) as [|x y] eqn:E; [exfalso; apply app_eq_nil in E; destruct E as [E _]; exact (whole_cons _ W E)|]. rewrite <- E. rewrite (find_none _ _ t (names_whole g) W C) by apply Nat.le_min_r.
  rewrite A, ext_find; [|exact Hi|]. 2:{ unfold which. cbn [snd]. rewrite Hc. unfold xmod, flags_of, xterm_modifier, ctrl, alt, bit. cbn [fst snd f_shift f_lctrl f_rctrl f_lalt f_ralt orb]. apply in_seq. destruct (f_shift _), (f_lalt _ || f_ralt _); lia. }
  rewrite Hv. f_equal. f_equal. f_equal. unfold which. cbn [snd]. rewrite Hc. unfold xmod, flags_of, xterm_modifier, alt, mods_name. cbn [fst snd f_shift f_lalt f_ralt]. destruct (f_shift (k_flags k)), (f_lalt (k_flags k)), (f_ralt (k_flags k)); reflexivity.
Qed.
End E.
