(** Proofs about the codes in a prompt. *)
From Verif Require Import Base PcModel PcSpec.
From Coq Require Import Ascii String.
Open Scope N_scope.
Open Scope list_scope.
Notation length := List.length.

Lemma upper_is c k : 65 <= k <= 90 -> (upper c =? k) = (k =? c) || (k + 32 =? c).
Proof. intro H. unfold upper. destruct ((97 <=? c) && (c <=? 122)) eqn:E; lia. Qed.
Lemma code_value sys fl c s : f_omit fl = false ->
  code sys fl c s = Some (mkP (if erases (Code c) then removelast (p_out s) else p_out s ++ token_value sys (Code c)) (if is_net (Code c) then f_single fl else p_trim s) (p_plus s)).
Proof.
  intro Ho. unfold code. cbv zeta. rewrite Ho, !upper_is by lia. cbn [token_value documented value erases is_net]. cbn [str list_ascii_of_string map existsb N_of_ascii N_of_digits]. cbn [N.mul N.add Pos.mul Pos.add Pos.succ]. rewrite !orb_false_r.
  rewrite ?(N.eqb_sym c). destruct s as [out tr pl]. cbn [p_out p_trim p_plus].
  repeat match goal with |- context [N.eqb ?k c] => destruct (N.eqb_spec k c) as [E|?]; [subst c; cbn; try reflexivity|cbn [orb]] end.
  all: try (destruct (y_ext sys); [|reflexivity]; destruct (y_cwd sys); [reflexivity|]; destruct (y_net sys) as [[|? ?]|]; reflexivity).
  rewrite app_nil_r. reflexivity.
Qed.
(** ** Taking characters away *)
Definition cut (k : nat) (l : text) : text := firstn (length l - k) l.
Lemma cut_0 l : cut 0 l = l.
Proof. unfold cut. rewrite Nat.sub_0_r. apply firstn_all. Qed.
Lemma cut_app_le k a b : (k <= length b)%nat -> cut k (a ++ b) = a ++ cut k b.
Proof. intro H. unfold cut. rewrite app_length. replace (length a + length b - k)%nat with (length a + (length b - k))%nat by lia. rewrite firstn_app_2. reflexivity. Qed.
Lemma cut_app_gt k a b : (length b <= k)%nat -> cut k (a ++ b) = cut (k - length b) a.
Proof. intro H. unfold cut. rewrite app_length. replace (length a + length b - k)%nat with (length a - (k - length b))%nat by lia. rewrite firstn_app. replace (length a - (k - length b) - length a)%nat with O by lia. cbn [firstn]. apply app_nil_r. Qed.
Lemma removelast_cut l : removelast l = cut 1 l.
Proof. unfold cut. destruct l as [|x l] using rev_ind; [reflexivity|]. rewrite removelast_last, app_length. cbn [length]. replace (length l + 1 - 1)%nat with (length l) by lia. rewrite firstn_app, firstn_all, Nat.sub_diag. cbn. rewrite app_nil_r. reflexivity. Qed.
Lemma firstn_cut_firstn m k (v : text) : (m <= length v)%nat -> cut k (firstn m v) = firstn (m - k) v.
Proof. intro H. unfold cut. rewrite firstn_length, firstn_firstn. f_equal. lia. Qed.
Lemma shown_taken sys r : forall j k, shown_rev sys r (j + k) = cut k (shown_rev sys r j).
Proof.
  induction r as [|t r IH]; intros j k; [reflexivity|]. cbn [shown_rev]. destruct (erases t); [exact (IH (S j) k)|]. set (v := token_value sys t).
  assert (Lb : length (firstn (length v - j) v) = (length v - j)%nat) by (rewrite firstn_length; lia).
  destruct (Nat.le_gt_cases k (length v - j)) as [H|H].
  - rewrite cut_app_le by lia. rewrite firstn_cut_firstn by lia. destruct k as [|k]; [rewrite Nat.add_0_r, Nat.sub_0_r; reflexivity|]. f_equal; f_equal; lia.
  - rewrite cut_app_gt by lia. rewrite Lb. replace (length v - (j + k))%nat with O by lia. cbn [firstn]. rewrite app_nil_r. rewrite <- IH. f_equal. lia.
Qed.
Lemma shown_last sys l t : shown sys (l ++ [t]) = if erases t then removelast (shown sys l) else shown sys l ++ token_value sys t.
Proof.
  unfold shown. rewrite rev_app_distr. cbn [rev app shown_rev]. destruct (erases t).
  - rewrite removelast_cut. apply (shown_taken sys (rev l) 0 1).
  - rewrite Nat.sub_0_r, firstn_all. reflexivity.
Qed.
Lemma shown_app sys a b : forallb (fun t => negb (erases t)) b = true -> shown sys (a ++ b) = shown sys a ++ List.concat (map (token_value sys) b).
Proof.
  induction b as [|t b IH] using rev_ind; intro H; [cbn; rewrite !app_nil_r; reflexivity|]. rewrite forallb_app in H. apply andb_prop in H. destruct H as [H1 H2]. cbn [forallb] in H2. rewrite app_assoc, shown_last, IH by exact H1. destruct (erases t); [discriminate H2|]. rewrite map_app, concat_app. cbn [map List.concat]. rewrite app_nil_r, app_assoc. reflexivity.
Qed.
(** the number of pushed directories does not matter where there is no $+ *)
Definition with_depth (sys : system) (d : nat) : system := mkSys (y_date sys) (y_time sys) (y_cwd sys) (y_version sys) (y_net sys) (y_ext sys) d.
Lemma value_depth sys d t : is_plus t = false -> token_value (with_depth sys d) t = token_value sys t.
Proof.
  destruct t as [c|c]; [reflexivity|]. cbn [is_plus]. intro H. cbn [token_value documented value]. unfold with_depth. cbn [y_date y_time y_cwd y_version y_net y_ext y_depth]. replace (existsb (fun x => x =? c) (str "+")) with false; [reflexivity|]. change (str "+") with [43]. cbn [existsb]. rewrite N.eqb_sym, H. reflexivity.
Qed.
Lemma shown_depth sys d l : pluses l = O -> shown (with_depth sys d) l = shown sys l.
Proof.
  induction l as [|t l IH] using rev_ind; intro H; [reflexivity|]. unfold pluses in H. rewrite filter_app, app_length in H. cbn [filter] in H. destruct (is_plus t) eqn:E; [cbn in H; lia|]. rewrite !shown_last, IH by (unfold pluses; lia). rewrite value_depth by exact E. reflexivity.
Qed.

(** ** The loop *)
Definition step (sys : system) (fl : flags) (t : token) (s : state) : option state :=
  match t with Char c => Some (mkP (p_out s ++ [c]) false (p_plus s)) | Code c => code sys fl c (mkP (p_out s) false (p_plus s)) end.
Lemma codes_step sys fl t l s : good_token t -> f_single fl && ends_line t = false -> codes sys fl (token_text t ++ l) s = match step sys fl t s with Some s => codes sys fl l s | None => None end.
Proof.
  intros Hg He. destruct t as [c|c]; cbn [token_text app codes ends_line good_token step] in *.
  - rewrite (orb_comm (c =? 13)), He. replace (c =? 36) with false by lia. reflexivity.
  - replace (f_single fl && ((36 =? 13) || (36 =? 10))) with false by (destruct (f_single fl); reflexivity). cbn [N.eqb Pos.eqb negb]. rewrite He. reflexivity.
Qed.
Lemma codes_last sys fl s : codes sys fl [36] s = Some (mkP (p_out s) false (p_plus s)).
Proof. cbn. destruct (f_single fl); reflexivity. Qed.
(** not omitted *)
Lemma codes_shown sys fl : f_omit fl = false -> forall b a s, Forall good_token b -> forallb (fun t => negb (f_single fl && ends_line t)) b = true -> p_out s = shown sys a ->
  forall l, codes sys fl (prompt_text b ++ l) s = codes sys fl l (mkP (shown sys (a ++ b)) (match b with [] => p_trim s | _ => f_single fl && ends_with_net b end) (p_plus s)).
Proof.
  intro Ho. induction b as [|t b IH]; intros a s Hg He Hs l; [rewrite app_nil_r, <- Hs; destruct s; reflexivity|].
  inversion Hg as [|? ? G1 G2]; subst. cbn [forallb] in He. apply andb_prop in He. destruct He as [E1 E2]. change (prompt_text (t :: b)) with (token_text t ++ prompt_text b). rewrite <- app_assoc, codes_step; [|exact G1|destruct (f_single fl && ends_line t); [discriminate E1|reflexivity]].
  assert (S1 : step sys fl t s = Some (mkP (shown sys (a ++ [t])) (f_single fl && is_net t) (p_plus s))).
  { rewrite shown_last. destruct t as [c|c]; cbn [step].
    - rewrite Hs. cbn [erases token_value is_net]. rewrite andb_false_r. reflexivity.
    - rewrite code_value by exact Ho. cbn [p_out p_plus p_trim]. rewrite Hs. destruct (is_net (Code c)), (f_single fl); reflexivity. }
  rewrite S1. rewrite (IH (a ++ [t])) by (assumption || reflexivity). cbn [p_plus p_trim]. rewrite <- app_assoc. cbn [app]. destruct b as [|t' b]; [reflexivity|]. unfold ends_with_net. cbn [rev]. destruct (rev b ++ [t']) as [|y r] eqn:Er; [destruct (rev b); discriminate Er|]. reflexivity.
Qed.
(** omitted *)
Lemma codes_omit sys fl : f_omit fl = true -> f_single fl = false -> forall b a s, Forall good_token b -> p_out s = shown (with_depth sys 0) a -> (p_plus s + pluses b <= 1)%nat ->
  codes sys fl (prompt_text b) s = Some (mkP (shown (with_depth sys 0) (a ++ b)) (match b with [] => p_trim s | _ => false end) (p_plus s + pluses b)).
Proof.
  intros Ho Hf. induction b as [|t b IH]; intros a s Hg Hs Hp; [cbn; rewrite app_nil_r, <- Hs, Nat.add_0_r; destruct s; reflexivity|].
  inversion Hg as [|? ? G1 G2]; subst. change (prompt_text (t :: b)) with (token_text t ++ prompt_text b). rewrite codes_step; [|exact G1|rewrite Hf; reflexivity].
  change (pluses (t :: b)) with (length (filter is_plus (t :: b))) in *. cbn [filter] in *.
  assert (S1 : step sys fl t s = Some (mkP (shown (with_depth sys 0) (a ++ [t])) false (p_plus s + if is_plus t then 1 else 0))).
  { rewrite shown_last. destruct t as [c|c]; cbn [step].
    - rewrite Hs. cbn [erases token_value is_plus]. rewrite Nat.add_0_r. reflexivity.
    - destruct (is_plus (Code c)) eqn:E.
      + cbn [is_plus] in E. apply N.eqb_eq in E. subst c. cbn [length] in Hp. cbn. rewrite Ho. destruct (p_plus s) as [|k]; [|cbn in Hp; lia]. rewrite Hs, app_nil_r. reflexivity.
      + assert (X : code sys fl c (mkP (p_out s) false (p_plus s)) = code (with_depth sys 0) (mkF false false) c (mkP (p_out s) false (p_plus s))). { cbn [is_plus] in E. unfold code. cbv zeta. rewrite E, Hf. reflexivity. }
        rewrite X, code_value by reflexivity. cbn [p_out p_plus p_trim f_single]. rewrite Hs, Nat.add_0_r. destruct (is_net (Code c)); reflexivity. }
  rewrite S1. rewrite (IH (a ++ [t])); [|exact G2|reflexivity|cbn [p_plus]; unfold pluses; destruct (is_plus t); cbn [length] in Hp; lia]. cbn [p_plus p_trim]. rewrite <- app_assoc. cbn [app]. unfold pluses. f_equal. f_equal; [destruct b; reflexivity|]. destruct (is_plus t); cbn [length]; lia.
Qed.
Lemma codes_two sys fl : f_omit fl = true -> f_single fl = false -> forall b s, Forall good_token b -> (2 <= p_plus s + pluses b)%nat -> (p_plus s <= 1)%nat -> codes sys fl (prompt_text b) s = None.
Proof.
  intros Ho Hf. induction b as [|t b IH]; intros s Hg Hp Hs; [cbn in Hp; lia|].
  inversion Hg as [|? ? G1 G2]; subst. change (prompt_text (t :: b)) with (token_text t ++ prompt_text b). rewrite codes_step; [|exact G1|rewrite Hf; reflexivity].
  change (pluses (t :: b)) with (length (filter is_plus (t :: b))) in *. cbn [filter] in *. destruct (is_plus t) eqn:E.
  - destruct t as [c|c]; [discriminate E|]. cbn [is_plus] in E. apply N.eqb_eq in E. subst c. cbn. rewrite Ho. destruct (p_plus s) as [|k]; [|reflexivity]. apply IH; [exact G2| |cbn; lia]. cbn [p_plus length] in *. unfold pluses. lia.
  - destruct t as [c|c]; cbn [step].
    + apply IH; assumption.
    + assert (X : code sys fl c (mkP (p_out s) false (p_plus s)) = code (with_depth sys 0) (mkF false false) c (mkP (p_out s) false (p_plus s))). { cbn [is_plus] in E. unfold code. cbv zeta. rewrite E, Hf. reflexivity. }
      rewrite X, code_value by reflexivity. apply IH; assumption.
Qed.
Lemma trim_spec t : no_spaces_at_end t (trim_right t).
Proof.
  unfold no_spaces_at_end, trim_right. assert (A : forall l, exists k, l = repeat 32 k ++ drop_spaces l /\ forall r, drop_spaces l <> 32 :: r).
  { induction l as [|c l (k & I1 & I2)]; [exists O; split; [reflexivity|discriminate]|]. cbn [drop_spaces]. destruct (c =? 32) eqn:E; [exists (S k); split; [cbn; f_equal; [lia|exact I1]|exact I2]|exists O; split; [reflexivity|]; intros r X; injection X as -> _; discriminate E]. }
  destruct (A (rev t)) as (k & E & H). exists k. split.
  - rewrite <- (rev_involutive t) at 1. rewrite E at 1. rewrite rev_app_distr. f_equal. clear. induction k as [|k IH]; [reflexivity|]. cbn [repeat rev]. rewrite IH. clear. induction k as [|k IH]; [reflexivity|]. cbn. f_equal. exact IH.
  - intros r' X. apply (f_equal (@rev N)) in X. rewrite rev_involutive, rev_app_distr in X. exact (H _ X).
Qed.
(** ** Taking the text apart *)
Lemma tokens_exist l : exists b, Forall good_token b /\ (l = prompt_text b \/ l = prompt_text b ++ [36]).
Proof.
  remember (length l) as k eqn:Ek. assert (Hk : (length l <= k)%nat) by lia. clear Ek. revert l Hk. induction k as [|k IH]; intros l Hk; [destruct l; [exists []; split; [apply Forall_nil|left; reflexivity]|cbn in Hk; lia]|].
  destruct l as [|c l]; [exists []; split; [apply Forall_nil|left; reflexivity]|]. destruct (N.eq_dec c 36) as [->|Hc].
  - destruct l as [|d l]; [exists []; split; [apply Forall_nil|right; reflexivity]|]. destruct (IH l) as (b & G & W); [cbn in Hk; lia|]. exists (Code d :: b). split; [apply Forall_cons; [exact Logic.I|exact G]|]. change (prompt_text (Code d :: b)) with (36 :: d :: prompt_text b). cbn [app]. destruct W as [<-|<-]; [left|right]; reflexivity.
  - destruct (IH l) as (b & G & W); [cbn in Hk; lia|]. exists (Char c :: b). split; [apply Forall_cons; [exact Hc|exact G]|]. change (prompt_text (Char c :: b)) with (c :: prompt_text b). cbn [app]. destruct W as [<-|<-]; [left|right]; reflexivity.
Qed.
Lemma text_nonempty b : b <> [] -> prompt_text b <> [].
Proof. destruct b as [|[c|c] b]; [congruence|discriminate|discriminate]. Qed.
Lemma expand_codes_eq sys fl l : l <> [] -> expand_codes sys fl l = match codes sys fl l (mkP [] false 0) with None => None | Some s => Some (if p_trim s then trim_right (p_out s) else p_out s) end.
Proof. destruct l; [congruence|reflexivity]. Qed.
(** ** The depth *)
Lemma text_eqb_refl l : text_eqb l l = true.
Proof. induction l as [|x l IH]; [reflexivity|]. cbn. rewrite N.eqb_refl. exact IH. Qed.
Lemma text_eqb_eq a b : text_eqb a b = true -> a = b.
Proof. revert b. induction a as [|x a IH]; intros [|y b] H; try discriminate H; [reflexivity|]. cbn in H. apply andb_prop in H. destruct H as [H1 H2]. f_equal; [lia|exact (IH b H2)]. Qed.
Lemma skip_same_app a e c : skip_same (a ++ e) (a ++ c) = skip_same e c.
Proof. induction a as [|x a IH]; [reflexivity|]. cbn. rewrite N.eqb_refl. exact IH. Qed.
Lemma skip_same_spec e : forall c, exists a, e = a ++ fst (skip_same e c) /\ c = a ++ snd (skip_same e c).
Proof.
  induction e as [|x e IH]; intros [|y c]; try (exists []; split; reflexivity). cbn [skip_same]. destruct (x =? y) eqn:E; [|exists []; split; reflexivity]. destruct (IH c) as (a & A & B). exists (x :: a). apply N.eqb_eq in E. subst y. cbn [app]. split; f_equal; assumption.
Qed.
Lemma repeat_swap d (b : text) : repeat 43 d ++ 43 :: b = 43 :: repeat 43 d ++ b.
Proof. induction d as [|d IH]; [reflexivity|]. cbn. f_equal. exact IH. Qed.
Lemma skip_plus b d : exists b', skip_same b (repeat 43 (S d) ++ b) = (b', repeat 43 (S d) ++ b').
Proof.
  induction b as [|x b (b' & IH)]; [exists []; reflexivity|]. destruct (N.eq_dec x 43) as [->|Hx].
  - rewrite repeat_swap. cbn [skip_same]. rewrite N.eqb_refl. exists b'. exact IH.
  - exists (x :: b). cbn [repeat app skip_same]. replace (x =? 43) with false by lia. reflexivity.
Qed.
Lemma compare_depth_found a b d : compare_depth (a ++ b) (a ++ repeat 43 d ++ b) = Some d.
Proof.
  unfold compare_depth. rewrite !app_length, repeat_length. replace (length a + length b <=? length a + (d + length b))%nat with true by lia. rewrite skip_same_app. destruct d as [|d].
  - cbn [repeat app]. assert (E : skip_same b b = ([], [])) by (clear; induction b as [|x b IH]; [reflexivity|]; cbn; rewrite N.eqb_refl; exact IH). rewrite E. reflexivity.
  - destruct (skip_plus b d) as (b' & ->). rewrite app_length, repeat_length. replace (S d + length b' - length b')%nat with (S d) by lia. rewrite skipn_app, skipn_all2 by (rewrite repeat_length; lia). rewrite repeat_length, Nat.sub_diag. cbn [skipn app]. rewrite text_eqb_refl. rewrite firstn_app, repeat_length, Nat.sub_diag, firstn_O, app_nil_r. rewrite firstn_all2 by (rewrite repeat_length; lia). replace (forallb (fun x : N => x =? 43) (repeat 43 (S d))) with true; [destruct b'; reflexivity|]. symmetry. apply forallb_forall. intros x Hx. apply repeat_spec in Hx. subst x. reflexivity.
Qed.
Lemma all_43 l : forallb (fun x => x =? 43) l = true -> l = repeat 43 (length l).
Proof. induction l as [|x l IH]; intro H; [reflexivity|]. cbn in H. apply andb_prop in H. destruct H as [H1 H2]. cbn. f_equal; [lia|exact (IH H2)]. Qed.
Lemma compare_depth_sound e c d : compare_depth e c = Some d -> exists a b, e = a ++ b /\ c = a ++ repeat 43 d ++ b.
Proof.
  unfold compare_depth. destruct (length e <=? length c)%nat eqn:L; [|discriminate]. destruct (skip_same_spec e c) as (a & A & B). destruct (skip_same e c) as [e' c']. cbn [fst snd] in *. subst e c. intro H. exists a, e'. split; [reflexivity|]. f_equal. rewrite !app_length in L.
  assert (G : c' <> [] -> (if text_eqb e' (skipn (length c' - length e') c') && forallb (fun x => x =? 43) (firstn (length c' - length e') c') then Some (length c' - length e')%nat else None) = Some d -> c' = repeat 43 d ++ e').
  { intros _ H'. destruct (text_eqb e' (skipn (length c' - length e') c') && forallb (fun x => x =? 43) (firstn (length c' - length e') c')) eqn:E; [|discriminate H']. injection H' as <-. apply andb_prop in E. destruct E as [E1 E2]. apply text_eqb_eq in E1. apply all_43 in E2. rewrite firstn_length in E2. transitivity (firstn (length c' - length e') c' ++ skipn (length c' - length e') c'); [symmetry; apply firstn_skipn|]. rewrite <- E1, E2. f_equal. f_equal. lia. }
  destruct c' as [|y c']; [destruct e' as [|x e']; [injection H as <-; reflexivity|discriminate H]|]. assert (Y : y = 43). { destruct (N.eq_dec y 43) as [E|E]; [exact E|exfalso]. destruct e'; (destruct y as [|p]; [discriminate H|]; repeat (match type of H with context [match ?p with xI _ => _ | xO _ => _ | xH => _ end] => destruct p end; try discriminate H); congruence). }
  subst y. apply G; [discriminate|]. destruct e'; exact H.
Qed.
Lemma has_plus_in a b : has_plus (prompt_text (a ++ Code 43 :: b)) = true.
Proof.
  assert (A : forall l r, has_plus r = true -> has_plus (l ++ r) = true). { induction l as [|x l IH]; intros r H; [exact H|]. cbn [app]. specialize (IH r H). cbn [has_plus]. destruct (l ++ r) as [|y z]; [cbn in IH; discriminate IH|]. rewrite IH, orb_true_r. reflexivity. }
  unfold prompt_text. rewrite map_app, concat_app. apply A. reflexivity.
Qed.
