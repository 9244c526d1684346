From Verif Require Import Base QueueModel QueueProofs EdModel EdSpec.
Open Scope N_scope.

Lemma nl_test c : newline c <-> negb (c =? 10) && negb (c =? 13) = false.
Proof. unfold newline. lia. Qed.
Lemma strip_piece st p : forall t prev, no_newline p -> strip_loop st prev (p ++ t) = match p with [] => strip_loop st prev t | _ => (p ++ fst (strip_loop st false t), snd (strip_loop st false t)) end.
Proof.
  induction p as [|c p IH]; intros t prev H; [reflexivity|]. inversion H as [|x l A B]. subst x l. cbn [app strip_loop].
  destruct (negb (c =? 10) && negb (c =? 13)) eqn:E; [|apply nl_test in E; contradiction]. rewrite IH by exact B. destruct p as [|c' p]; [destruct (strip_loop st false t); reflexivity|reflexivity].
Qed.
Lemma strip_run_prev st n : forall t, Forall newline n -> strip_loop st true (n ++ t) = strip_loop st true t.
Proof. induction n as [|c n IH]; intros t H; [reflexivity|]. inversion H as [|x l A B]. subst x l. cbn [app strip_loop]. apply nl_test in A. rewrite A. cbn [negb]. now apply IH. Qed.
Lemma strip_run_delete n : forall t prev, Forall newline n -> strip_loop PDelete prev (n ++ t) = strip_loop PDelete prev t.
Proof. induction n as [|c n IH]; intros t prev H; [reflexivity|]. inversion H as [|x l A B]. subst x l. cbn [app strip_loop]. apply nl_test in A. rewrite A. destruct prev; cbn [negb]; now apply IH. Qed.
Lemma strip_prev st t : match t with c :: _ => ~ newline c | [] => True end -> strip_loop st true t = strip_loop st false t.
Proof. destruct t as [|c t]; [reflexivity|]. intros H. cbn [strip_loop]. destruct (negb (c =? 10) && negb (c =? 13)) eqn:E; [reflexivity|]. apply nl_test in E. contradiction. Qed.
Definition sep_of (st : setting) : list N := match st with PSpace => [32] | PAmpersand => [38] | _ => [] end.
Lemma strip_runs st t ps : st <> PCrlf -> runs t ps -> strip_loop st false t = (join (sep_of st) ps, false).
Proof.
  intros Hs R. induction R as [p H|p n t ps H1 H2 H3 H4 R IH].
  - rewrite <- (app_nil_r p) at 1. rewrite strip_piece by exact H. destruct p; [reflexivity|]. cbn [strip_loop fst snd join]. now rewrite app_nil_r.
  - assert (X : strip_loop st false (n ++ t) = (sep_of st ++ join (sep_of st) ps, false)).
    { destruct st; [| | |contradiction].
      - rewrite strip_run_delete by exact H3. exact IH.
      - destruct n as [|c n]; [now contradiction H2|]. inversion H3 as [|x l A B]. subst x l. cbn [app strip_loop]. apply nl_test in A. rewrite A. cbn [negb]. rewrite strip_run_prev by exact B. rewrite strip_prev by exact H4. rewrite IH. reflexivity.
      - destruct n as [|c n]; [now contradiction H2|]. inversion H3 as [|x l A B]. subst x l. cbn [app strip_loop]. apply nl_test in A. rewrite A. cbn [negb]. rewrite strip_run_prev by exact B. rewrite strip_prev by exact H4. rewrite IH. reflexivity. }
    assert (Hps : ps <> []) by (destruct R; discriminate).
    rewrite strip_piece by exact H1. cbn [join]. destruct ps as [|p' ps]; [now contradiction Hps|]. destruct p; rewrite X; reflexivity.
Qed.
Lemma runs_exist_n n : forall t, (length t <= n)%nat -> exists ps, runs t ps.
Proof.
  induction n as [|n IH]; intros t L. { exists [[]]. destruct t; [|cbn in L; lia]. apply runs_one. constructor. }
  assert (P : forall t, exists p r, t = p ++ r /\ no_newline p /\ match r with c :: _ => newline c | [] => True end).
  { clear. induction t as [|c t (p & r & A & B & C)]; [exists [], []; split; [reflexivity|]; split; [constructor|exact Logic.I]|].
    destruct (negb (c =? 10) && negb (c =? 13)) eqn:E; [exists (c :: p), r; split; [now subst t|]; split; [constructor; [|exact B]|exact C]; rewrite nl_test, E; discriminate|].
    exists [], (c :: t). split; [reflexivity|]. split; [constructor|now apply nl_test]. }
  assert (Q : forall t, exists m r, t = m ++ r /\ Forall newline m /\ match r with c :: _ => ~ newline c | [] => True end).
  { clear. induction t as [|c t (p & r & A & B & C)]; [exists [], []; split; [reflexivity|]; split; [constructor|exact Logic.I]|].
    destruct (negb (c =? 10) && negb (c =? 13)) eqn:E; [exists [], (c :: t); split; [reflexivity|]; split; [constructor|]; rewrite nl_test, E; discriminate|].
    exists (c :: p), r. split; [now subst t|]. split; [constructor; [now apply nl_test|exact B]|exact C]. }
  destruct (P t) as (p & r & A & B & C). destruct r as [|c r]. { exists [p]. subst t. rewrite app_nil_r. now apply runs_one. }
  destruct (Q (c :: r)) as (m & r2 & D & E & F). destruct m as [|c' m]. { exfalso. cbn in D. subst r2. contradiction. }
  destruct (IH r2) as (ps & R). { subst t. rewrite D in L. rewrite !app_length in L. cbn in L. lia. }
  exists (p :: ps). subst t. rewrite D. apply runs_cons; auto. discriminate.
Qed.

(** ** lines *)
Lemma strip_crlf_loop t : fst (strip_loop PCrlf false t) = without_cr t /\ (In 10 t -> snd (strip_loop PCrlf false t) = true).
Proof.
  induction t as [|c t [IH1 IH2]]; [split; [reflexivity|intros []]|]. cbn [strip_loop without_cr filter negb]. destruct (strip_loop PCrlf false t) as [o h]. cbn [fst snd] in *. subst o. fold (without_cr t).
  destruct (c =? 10) eqn:E1; destruct (c =? 13) eqn:E2; cbn [negb andb fst snd]; try lia; (split; [try reflexivity; f_equal; lia|]); try reflexivity; (intros [A|A]; [lia|now apply IH2]).
Qed.
Lemma to_lf_some p t : Forall (fun c => c <> 10) p -> to_lf (p ++ 10 :: t) = (p ++ [10], true, t).
Proof. induction p as [|c p IH]; intros H; [reflexivity|]. inversion H; subst. cbn [app to_lf]. destruct (c =? 10) eqn:E; [lia|]. rewrite IH by assumption. reflexivity. Qed.
Lemma to_lf_none p : Forall (fun c => c <> 10) p -> to_lf p = (p, false, []).
Proof. induction p as [|c p IH]; intros H; [reflexivity|]. inversion H; subst. cbn [to_lf]. destruct (c =? 10) eqn:E; [lia|]. rewrite IH by assumption. reflexivity. Qed.
Lemma queued_cons p rest : rest <> [] -> queued (p :: rest) = (p ++ [10]) :: queued rest.
Proof. intros H. unfold queued. destruct rest as [|r rest]; [now contradiction H|]. reflexivity. Qed.
Lemma split_lines t ls : lines t ls -> forall fuel, (length t <= fuel)%nat -> fst (split_rest fuel t) = queued ls.
Proof.
  induction 1 as [p H|p t ls H L IH]; intros fuel F.
  - unfold queued. cbn [removelast map app last]. destruct p as [|c p]; [destruct fuel; reflexivity|]. destruct fuel as [|f]; [cbn in F; lia|]. cbn [split_rest]. rewrite to_lf_none by exact H. destruct f; reflexivity.
  - rewrite queued_cons by (destruct L; discriminate). rewrite app_length in F. cbn [length] in F. destruct fuel as [|f]; [lia|]. unfold split_rest. fold split_rest.
    destruct (p ++ 10 :: t) as [|x y] eqn:E; [destruct p; discriminate|]. rewrite <- E. rewrite to_lf_some by exact H. destruct (split_rest f t) as [l d] eqn:Q. cbn [fst]. f_equal. specialize (IH f). rewrite Q in IH. apply IH. lia.
Qed.
Lemma lines_first t p rest : lines t (p :: rest) -> (rest = [] /\ t = p /\ Forall (fun c => c <> 10) p) \/ (rest <> [] /\ exists t', t = p ++ 10 :: t' /\ Forall (fun c => c <> 10) p /\ lines t' rest).
Proof. intros H. inversion H; subst; [left; auto|right]. split; [destruct H4; discriminate|]. eexists. split; [reflexivity|auto]. Qed.
Lemma without_cr_in t : In 10 (without_cr t) -> In 10 t.
Proof. unfold without_cr. rewrite filter_In. tauto. Qed.
Lemma strip_crlf_lines t p rest : lines (without_cr t) (p :: rest) -> strip_crlf PCrlf t = (p, match rest with [] => [] | _ => queued rest end, match rest with [] => false | _ => true end).
Proof.
  intros H. unfold strip_crlf. destruct (strip_crlf_loop t) as [A B]. destruct (strip_loop PCrlf false t) as [o h]. cbn [fst snd] in *. subst o. apply lines_first in H. destruct H as [(-> & E & F)|(Hr & t' & E & F & L)].
  - rewrite E. destruct h; [|reflexivity]. destruct p as [|c p]; [reflexivity|]. rewrite to_lf_none by exact F. reflexivity.
  - assert (h = true) as -> by (apply B, without_cr_in; rewrite E; apply in_or_app; right; now left). rewrite E. destruct (p ++ 10 :: t') as [|x y] eqn:X; [destruct p; discriminate|]. rewrite <- X. rewrite to_lf_some by exact F.
    pose proof (split_lines t' rest L (length t') (Nat.le_refl _)) as S1. destruct (split_rest (length t') t') as [l d]. cbn [fst] in S1. subst l. destruct rest as [|r rest]; [now contradiction Hr|]. cbn [orb]. f_equal. f_equal. now rewrite removelast_last.
Qed.
Lemma lines_exist t : exists p rest, lines t (p :: rest).
Proof.
  induction t as [|c t (p & rest & IH)]; [exists [], []; constructor; constructor|]. destruct (c =? 10) eqn:E.
  - assert (c = 10) as -> by lia. exists [], (p :: rest). apply (lines_cons [] t); [constructor|exact IH].
  - inversion IH; subst.
    + exists (c :: p), []. constructor. constructor; [lia|assumption].
    + exists (c :: p), rest. change (c :: p ++ 10 :: t0) with ((c :: p) ++ 10 :: t0). constructor; [constructor; [lia|assumption]|assumption].
Qed.

(** ** the queue *)
Lemma last_snoc {A} (l : list A) x d : last (l ++ [x]) d = x.
Proof. induction l as [|y l IH]; [reflexivity|]. cbn [app last]. destruct (l ++ [x]) eqn:E; [destruct l; discriminate|exact IH]. Qed.
Definition fin (q : list qline) : Prop := match q with [] => True | _ => unfinished (q_line (last q (mkQ [] [] 0 show_only))) = false end.
Lemma enqueue_finished q t : t <> [] -> fin q -> enqueue_back q t = q ++ [mkQ t [] 0 show_only].
Proof. intros H F. unfold enqueue_back. destruct t as [|c t]; [now contradiction H|]. destruct q as [|x q]; [reflexivity|]. unfold fin in F. now rewrite F. Qed.
Lemma unfinished_lf p : unfinished (p ++ [10]) = false.
Proof. unfold unfinished. destruct (p ++ [10]) eqn:E; [reflexivity|]. rewrite <- E, last_snoc. reflexivity. Qed.
Lemma unfinished_piece p : p <> [] -> Forall (fun c => c <> 10) p -> unfinished p = true.
Proof. intros H F. unfold unfinished. destruct p as [|c p]; [now contradiction H|]. assert (X : In (last (c :: p) 0) (c :: p)). { destruct (@exists_last _ (c :: p) H) as (l & a & ->). rewrite last_snoc. apply in_or_app. right. now left. } rewrite Forall_forall in F. specialize (F _ X). lia. Qed.
Lemma fin_snoc q x : fin (q ++ [x]) <-> unfinished (q_line x) = false.
Proof. unfold fin. destruct (q ++ [x]) eqn:E; [destruct q; discriminate|]. rewrite <- E, last_snoc. reflexivity. Qed.
Lemma enqueue_all : forall rest q, fin q -> rest <> [] -> Forall (Forall (fun c => c <> 10)) rest ->
  fold_left enqueue_back (queued rest) q = q ++ map (fun t => mkQ t [] 0 show_only) (queued rest).
Proof.
  induction rest as [|p rest IH]; intros q F Hn Hf; [now contradiction Hn|]. inversion Hf as [|x l A B]. subst x l. destruct rest as [|r rest].
  - unfold queued. cbn [removelast map app last]. destruct p as [|c p]; [cbn; now rewrite app_nil_r|]. cbn [fold_left map]. now apply enqueue_finished.
  - rewrite queued_cons by discriminate. cbn [fold_left map]. rewrite enqueue_finished; [|destruct p; discriminate|exact F]. rewrite IH; [now rewrite <- app_assoc|apply fin_snoc; cbn; apply unfinished_lf|discriminate|exact B].
Qed.
Lemma lines_no_lf t ls : lines t ls -> Forall (Forall (fun c => c <> 10)) ls.
Proof. induction 1; constructor; auto. Qed.
Lemma lines_sub (P : N -> Prop) t ls : lines t ls -> Forall P t -> Forall (Forall P) ls.
Proof. induction 1 as [p H|p t ls H L IH]; intros F; [constructor; auto|]. apply Forall_app in F. destruct F as [F1 F2]. inversion F2; subst. constructor; auto. Qed.
Lemma ensure_lf p : Forall (fun c => c <> 13) p -> Forall (fun c => c <> 10) p -> ensure_crlf (p ++ [10]) = p ++ [13; 10].
Proof.
  intros A B. unfold ensure_crlf. f_equal. rewrite strip_snoc. cbn [is_nl]. change (is_nl 10) with true. cbv iota. destruct p as [|c p]; [reflexivity|]. destruct (@exists_last _ (c :: p)) as (l & a & E); [discriminate|]. rewrite E in *. rewrite strip_snoc.
  apply Forall_app in A. apply Forall_app in B. destruct A as [_ A]. destruct B as [_ B]. inversion A; subst. inversion B; subst. unfold is_nl. replace (a =? 13) with false by lia. replace (a =? 10) with false by lia. reflexivity.
Qed.
Lemma ensure_piece p : p <> [] -> Forall (fun c => c <> 13) p -> Forall (fun c => c <> 10) p -> ensure_crlf p = p ++ [13; 10].
Proof.
  intros H A B. unfold ensure_crlf. f_equal. destruct (@exists_last _ p H) as (l & a & E). rewrite E in *. rewrite strip_snoc.
  apply Forall_app in A. apply Forall_app in B. destruct A as [_ A]. destruct B as [_ B]. inversion A; subst. inversion B; subst. unfold is_nl. replace (a =? 13) with false by lia. replace (a =? 10) with false by lia. reflexivity.
Qed.
Lemma dequeue_show resolve t q : dequeue_line resolve (mkQ t [] 0 show_only :: q) = Some (ensure_crlf t, (if unfinished t then mkF false true true false else show_only), q).
Proof. unfold dequeue_line. cbn [q_cur q_line q_flags show_only f_hide f_show f_nodos f_edit]. destruct (unfinished t); cbn; reflexivity. Qed.
