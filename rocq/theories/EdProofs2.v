From Verif Require Import Base QueueModel QueueProofs EdModel EdSpec EdProofs.
Open Scope N_scope.

Lemma firstn_at {A} (a r : list A) : firstn (length a) (a ++ r) = a.
Proof. rewrite firstn_app, Nat.sub_diag, firstn_all. cbn [firstn]. apply app_nil_r. Qed.
Lemma skipn_at {A} (a r : list A) : skipn (length a) (a ++ r) = r.
Proof. rewrite skipn_app, Nat.sub_diag, skipn_all. reflexivity. Qed.
Lemma cut_out (a s c : list N) : firstn (length a) (a ++ s ++ c) ++ skipn (length (a ++ s)) (a ++ s ++ c) = a ++ c.
Proof. rewrite firstn_at. f_equal. rewrite app_assoc. apply skipn_at. Qed.
Lemma delete_selected b a s c : selected b a s c -> between (cua_delete b) a c.
Proof.
  intros [T D]. unfold cua_delete. assert (L : (length a <= length (a ++ s) <= length (l_text b))%nat) by (rewrite T, !app_length; lia).
  destruct D as [[A P]|[A P]]; rewrite A, P.
  - destruct (length a <? length (a ++ s))%nat eqn:E.
    + unfold remove, delete_text, set_cursor, between. cbn [l_text l_point l_anchor]. rewrite !Nat.min_l by lia. rewrite (Nat.min_r (length (a ++ s))) by lia. rewrite (Nat.max_l (length (a ++ s))) by lia.
      rewrite (Nat.min_l (length (a ++ s))) by lia. rewrite (Nat.min_l (length a)) by lia. rewrite T, cut_out. split; [reflexivity|]. split; [|reflexivity]. rewrite app_length. lia.
    + assert (s = []) as -> by (apply Nat.ltb_ge in E; rewrite app_length in E; destruct s; [reflexivity|cbn [length] in E; lia]). cbn [app] in T. rewrite app_nil_r in *. unfold remove, delete_text, set_cursor, between. cbn [l_text l_point l_anchor].
      repeat (rewrite Nat.min_id || rewrite Nat.max_id || rewrite (Nat.min_l (length a) (length (l_text b))) by lia). rewrite T, firstn_at, skipn_at. split; [reflexivity|]. split; [|reflexivity]. rewrite app_length. lia.
  - destruct (length (a ++ s) <? length a)%nat eqn:E; [lia|]. unfold remove, delete_text, set_cursor, between. cbn [l_text l_point l_anchor].
    rewrite (Nat.min_l (length a) (length (l_text b))) by lia. rewrite (Nat.min_r (length (a ++ s)) (length a)) by lia. rewrite (Nat.max_l (length (a ++ s))) by lia. rewrite (Nat.min_l (length (a ++ s))) by lia. rewrite (Nat.min_l (length a)) by lia.
    rewrite T, cut_out. split; [reflexivity|]. split; [|reflexivity]. rewrite app_length. lia.
Qed.
Lemma copy_selected b a s c clip : selected b a s c -> cua_copy b clip = match s with [] => clip | _ => s end.
Proof.
  intros [T D]. unfold cua_copy. assert (L : (length a <= length (a ++ s) <= length (l_text b))%nat) by (rewrite T, !app_length; lia).
  assert (F : firstn (length (a ++ s) - length a) (skipn (length a) (l_text b)) = s). { rewrite T, skipn_at, app_length. replace (length a + length s - length a)%nat with (length s) by lia. apply firstn_at. }
  assert (Z : s <> [] -> (length a < length (a ++ s))%nat) by (rewrite app_length; destruct s; [intros X; now contradiction X|cbn [length]; lia]).
  assert (Z0 : s = [] -> length (a ++ s) = length a) by (intros ->; now rewrite app_nil_r).
  destruct D as [[A P]|[A P]]; rewrite A, P; rewrite !Nat.min_r by lia.
  - destruct (length (a ++ s) <? length a)%nat eqn:E; [lia|]. destruct (length a <? length (a ++ s))%nat eqn:E2.
    + rewrite F. destruct s; [specialize (Z0 eq_refl); lia|reflexivity].
    + destruct s; [reflexivity|]. assert (length a < length (a ++ n :: s))%nat by (apply Z; discriminate). lia.
  - destruct (length a <? length (a ++ s))%nat eqn:E.
    + rewrite E, F. destruct s; [specialize (Z0 eq_refl); lia|reflexivity].
    + destruct s; [|assert (length a < length (a ++ n :: s))%nat by (apply Z; discriminate); lia]. rewrite Z0 by reflexivity. rewrite Nat.ltb_irrefl. reflexivity.
Qed.
Lemma insert_between b a c t : between b a c -> between (insert_text b t) (a ++ t) c.
Proof. intros (T & P & A). unfold insert_text, between. cbn [l_text l_point l_anchor]. rewrite T, P, firstn_at, skipn_at, app_length, app_assoc. auto. Qed.
Lemma selected_anchor b a s c : selected b a s c -> exists x, l_anchor b = Some x.
Proof. intros [_ [[A _]|[A _]]]; eauto. Qed.
Lemma delete_text_len b from to : (length (l_text (delete_text b from to)) <= length (l_text b))%nat.
Proof. unfold delete_text. cbn [l_text]. rewrite app_length, firstn_length, skipn_length. lia. Qed.
Lemma remove_in_line b from to : in_line (remove b from to).
Proof. unfold remove, set_cursor, in_line. cbn [l_text l_point l_anchor]. split; [lia|exact Logic.I]. Qed.
Lemma cua_delete_in_line b : in_line b -> in_line (cua_delete b).
Proof. intros H. unfold cua_delete. destruct (l_anchor b) as [a|] eqn:A; [|exact H]. destruct (a <? l_point b)%nat; (pose proof (remove_in_line (mkL (l_text b) a (Some (l_point b))) (l_point b) a) as X1; pose proof (remove_in_line (mkL (l_text b) (l_point b) (Some a)) a (l_point b)) as X2; unfold in_line in *; cbn [l_text l_point l_anchor] in *; split; [tauto|exact Logic.I]). Qed.
Lemma cua_delete_none b : l_anchor (cua_delete b) = None.
Proof. unfold cua_delete. destruct (l_anchor b) eqn:A; [|exact A]. destruct (n <? l_point b)%nat; reflexivity. Qed.
Lemma insert_in_line b t : in_line b -> l_anchor b = None -> in_line (insert_text b t).
Proof. intros [P _] A. unfold in_line, insert_text. cbn [l_text l_point l_anchor]. rewrite A. split; [|exact Logic.I]. rewrite !app_length, firstn_length, skipn_length. lia. Qed.
Lemma gone_or_none b : in_line b -> let b' := match l_anchor b with Some _ => cua_delete b | None => b end in in_line b' /\ l_anchor b' = None.
Proof. intros H. cbv zeta. destruct (l_anchor b) eqn:A; [|auto]. split; [now apply cua_delete_in_line|apply cua_delete_none]. Qed.

(** slashes *)
Lemma sep_slash c : is_separator c = true <-> slash c.
Proof. unfold is_separator, slash. lia. Qed.
Lemma kind_none w : forall sep, Forall (fun c => ~ slash c) w -> last_kind sep w = sep.
Proof. induction w as [|c w IH]; intros sep H; [reflexivity|]. inversion H; subst. cbn [last_kind]. destruct (is_separator c) eqn:E; [apply sep_slash in E; contradiction|auto]. Qed.
Lemma kind_uniform w : forall sep k, Forall (fun c => slash c -> c = k) w -> slash k -> (sep = k \/ (sep = 0 /\ Exists slash w)) -> last_kind sep w = k.
Proof.
  induction w as [|c w IH]; intros sep k H K S1.
  - destruct S1 as [->|[_ X]]; [reflexivity|inversion X].
  - inversion H as [|x l A B]. subst x l. cbn [last_kind]. destruct (is_separator c) eqn:E.
    + apply sep_slash in E. specialize (A E). subst c. destruct (negb (sep =? 0) && negb (sep =? k)) eqn:E2; [reflexivity|]. apply IH; auto.
    + apply IH; auto. destruct S1 as [->|[-> X]]; [now left|right]. split; [reflexivity|]. inversion X; subst; [apply sep_slash in H1; congruence|assumption].
Qed.
Lemma kind_mixed : forall w (sep k k' : N), slash k -> slash k' -> k <> k' -> sep = k -> In k' w -> last_kind sep w = k'.
Proof.
  induction w as [|c w IH]; intros sep k k' K K' D -> X; [destruct X|]. cbn [last_kind]. destruct (is_separator c) eqn:E.
  - apply sep_slash in E. destruct (negb (k =? 0) && negb (k =? c)) eqn:E2; [unfold slash in *; lia|]. assert (c = k) by (unfold slash in *; lia). subst c. apply (IH k k k'); auto. destruct X as [X|X]; [contradiction|exact X].
  - apply (IH k k k'); auto. destruct X as [X|X]; [subst c; apply sep_slash in K'; congruence|exact X].
Qed.
Lemma kind_skip u : forall w sep, Forall (fun c => ~ slash c) u -> last_kind sep (u ++ w) = last_kind sep w.
Proof. induction u as [|c u IH]; intros w sep H; [reflexivity|]. inversion H; subst. cbn [app last_kind]. destruct (is_separator c) eqn:E; [apply sep_slash in E; contradiction|auto]. Qed.
Definition with_slash (k : N) (w : list N) : list N := map (fun c => if is_separator c then k else c) w.
Lemma normalise_with sep w : normalise_separators sep w = with_slash sep w.
Proof. unfold normalise_separators, with_slash. apply map_ext. intros c. destruct (is_separator c); [|reflexivity]. destruct (c =? sep) eqn:E; cbn [negb andb]; [lia|reflexivity]. Qed.
Lemma toggle_at b a w c k : l_text b = a ++ w ++ c -> last_kind 0 w = k -> slash k -> in_line b ->
  exists b', toggle_slashes b (length a) (length w) = Some b' /\ between b' (a ++ with_slash (if k =? 47 then 92 else 47) w) c.
Proof.
  intros T K Sl I1. unfold toggle_slashes. assert (F : firstn (length w) (skipn (length a) (l_text b)) = w) by (rewrite T, skipn_at; apply firstn_at). rewrite F, K.
  assert (R : between (set_cursor (remove b (length a) (length a + length w)) (length a)) a c).
  { unfold remove, delete_text, set_cursor, between. cbn [l_text l_point l_anchor]. assert (L : length (l_text b) = (length a + length w + length c)%nat) by (rewrite T, !app_length; lia).
    rewrite (Nat.min_l (length a + length w)) by lia. rewrite (Nat.min_l (length a) (length a + length w)) by lia. rewrite (Nat.max_r (length a)) by lia. rewrite (Nat.min_l (length a + length w)) by lia. rewrite (Nat.min_l (length a) (length a + length w)) by lia.
    replace (length a + length w)%nat with (length (a ++ w)) by apply app_length. rewrite T, cut_out. split; [reflexivity|]. split; [|reflexivity]. rewrite app_length. lia. }
  rewrite !normalise_with. destruct Sl as [-> | ->]; cbn [N.eqb Pos.eqb]; (eexists; split; [reflexivity|]; now apply insert_between).
Qed.
