(** C98-C100: pasting several lines, editing with a selection, toggling slashes. *)
From Verif Require Import Base QueueModel QueueProofs EdModel EdSpec EdProofs EdProofs2.
Open Scope N_scope.

(** ** C98: text pasted *)
(** Every text consists of pieces and runs of newlines in one way for [strip_crlf]: each run is dropped or becomes one
    space or one ampersand, and nothing else is changed, queued or accepted. *)
Theorem paste_joined : forall t, (exists ps, runs t ps) /\ forall ps, runs t ps ->
  strip_crlf PDelete t = (concat ps, [], false) /\ strip_crlf PSpace t = (join [32] ps, [], false) /\ strip_crlf PAmpersand t = (join [38] ps, [], false).
Proof.
  intros t. split; [exact (runs_exist_n (length t) t (Nat.le_refl _))|]. intros ps R. unfold strip_crlf.
  rewrite (strip_runs PDelete t ps), (strip_runs PSpace t ps), (strip_runs PAmpersand t ps) by (assumption || discriminate). split; [|split; reflexivity].
  f_equal. f_equal. cbn [sep_of]. clear R. induction ps as [|p [|p' ps] IH]; [reflexivity|cbn; now rewrite app_nil_r|]. cbn [join concat app] in *. now rewrite IH.
Qed.
(** clink.paste_crlf = crlf: the first line stays in the line to be edited, which is accepted if more follow; the others
    are queued in order after what is queued already, the last one without an end. *)
Theorem paste_lines : forall wake t b q p rest, lines (without_cr t) (p :: rest) -> ended q -> l_anchor b = None ->
  exists b', paste wake PCrlf t b q = (b', q ++ map (fun t => mkQ t [] 0 show_only) (if match rest with [] => true | _ => false end then [] else queued rest), negb (match rest with [] => true | _ => false end)) /\
  forall a c, between b a c -> between b' (a ++ filter (fun x => negb (wake x)) p) c.
Proof.
  intros wake t b q p rest L F0 A. assert (F : fin q). { destruct F0 as [->|(q0 & x & u & -> & U)]; [exact Logic.I|]. apply fin_snoc. rewrite U. apply unfinished_lf. } unfold paste. rewrite (strip_crlf_lines t p rest L), A. eexists. split.
  - f_equal; [f_equal|destruct rest; reflexivity]. destruct rest as [|r rest]; [cbn; now rewrite app_nil_r|]. apply enqueue_all; [exact F|discriminate|]. pose proof (lines_no_lf _ _ L) as X. now inversion X.
  - intros a c B. now apply insert_between.
Qed.
Theorem paste_lines_exist : forall t, exists p rest, lines (without_cr t) (p :: rest).
Proof. intros t. apply lines_exist. Qed.
(** The prompts that follow get exactly the lines pasted, and only a last line that was not ended is left to be edited. *)
Theorem pasted_lines_run : forall wake resolve t b p rest, lines (without_cr t) (p :: rest) -> l_anchor b = None ->
  let '(_, q, done) := paste wake PCrlf t b [] in
  (done = true <-> rest <> []) /\
  drained resolve q (map (fun r => (r ++ [13; 10], false)) (removelast rest) ++ match last rest [] with [] => [] | r => [(r ++ [13; 10], true)] end).
Proof.
  intros wake resolve t b p rest L A. destruct (paste_lines wake t b [] p rest L (or_introl eq_refl) A) as (b' & E & _). rewrite E. clear E. split; [destruct rest; cbn; intuition congruence|].
  assert (C : Forall (Forall (fun c => c <> 13)) (p :: rest)). { apply (lines_sub _ _ _ L). unfold without_cr. apply Forall_forall. intros x X. apply filter_In in X. lia. }
  pose proof (lines_no_lf _ _ L) as D. inversion C as [|? ? _ C1]. inversion D as [|? ? _ D1]. clear L C D. subst. cbn [app]. destruct rest as [|r rest]; [constructor|]. cbv iota.
  assert (X : forall rest, rest <> [] -> Forall (Forall (fun c => c <> 13)) rest -> Forall (Forall (fun c => c <> 10)) rest -> drained resolve (map (fun t => mkQ t [] 0 show_only) (queued rest)) (map (fun r => (r ++ [13; 10], false)) (removelast rest) ++ match last rest [] with [] => [] | r => [(r ++ [13; 10], true)] end)).
  { clear. induction rest as [|r rest IH]; intros Hn C D; [now contradiction Hn|]. inversion C; inversion D; subst. destruct rest as [|r' rest].
    - unfold queued. cbn [removelast map app last]. destruct r as [|x r]; [constructor|]. cbn [map]. replace true with (f_edit (mkF false true true true)) by reflexivity.
      change (x :: r ++ [13; 10]) with ((x :: r) ++ [13; 10]). rewrite <- (ensure_piece (x :: r)) by (assumption || discriminate).
      pose proof (dequeue_show resolve (x :: r) []) as Y. rewrite unfinished_piece in Y by (assumption || discriminate). eapply (drained_cons resolve _ _ _ _ _ Y). constructor.
    - rewrite queued_cons by discriminate. cbn [map]. change (removelast (r :: r' :: rest)) with (r :: removelast (r' :: rest)). change (last (r :: r' :: rest) []) with (last (r' :: rest) []). cbn [map app].
      rewrite <- ensure_lf by assumption. pose proof (dequeue_show resolve (r ++ [10]) (map (fun t => mkQ t [] 0 show_only) (queued (r' :: rest)))) as Y. rewrite unfinished_lf in Y. change false with (f_edit show_only) at 1. eapply (drained_cons resolve _ _ _ _ _ Y). apply IH; [discriminate|assumption|assumption]. }
  apply X; [discriminate|assumption|assumption].
Qed.
(** clink.paste_crlf = crlf is documented to paste all newline characters as they are, but a CR by itself is dropped and
    joins two lines: "a CR b" is pasted as "ab" and nothing is accepted. *)
Theorem paste_cr_refuted : exists t a b, t = a ++ [13] ++ b /\ no_newline a /\ no_newline b /\ strip_crlf PCrlf t = (a ++ b, [], false).
Proof. exists [97; 13; 98], [97], [98]. split; [reflexivity|]. split; [|split; [|reflexivity]]; (constructor; [unfold newline; lia|constructor]). Qed.
(** A character that wakes the console input is kept out of the line, but not out of the lines queued. *)
Theorem paste_wake_refuted : exists t b', paste (fun c => c =? 7) PCrlf t (mkL [] 0 None) [] = (b', [mkQ [98; 7; 10] [] 0 show_only], true) /\ l_text b' = [97].
Proof. exists [97; 7; 10; 98; 7; 10], (mkL [97] 1 None). split; reflexivity. Qed.

(** ** C99: the selection *)
Theorem selection_exists : forall b x, in_line b -> l_anchor b = Some x -> exists a s c, selected b a s c.
Proof.
  intros b x [P A] E. rewrite E in A. set (lo := Nat.min x (l_point b)). set (hi := Nat.max x (l_point b)). exists (firstn lo (l_text b)), (firstn (hi - lo) (skipn lo (l_text b))), (skipn hi (l_text b)).
  assert (L1 : length (firstn lo (l_text b)) = lo) by (rewrite firstn_length; lia). assert (L2 : length (firstn lo (l_text b) ++ firstn (hi - lo) (skipn lo (l_text b))) = hi) by (rewrite app_length, L1, firstn_length, skipn_length; lia).
  split.
  - rewrite <- (firstn_skipn lo (l_text b)) at 1. f_equal. rewrite <- (firstn_skipn (hi - lo) (skipn lo (l_text b))) at 1. f_equal. assert (Z : forall (m n : nat) (l : list N), skipn m (skipn n l) = skipn (n + m) l) by (clear; intros m n; induction n as [|n IH]; intros l; [reflexivity|destruct l; [destruct m; reflexivity|apply IH]]). rewrite Z. f_equal. lia.
  - rewrite L1, L2, E. destruct (Nat.le_ge_cases x (l_point b)); [left|right]; (split; [f_equal|]); lia.
Qed.
(** With [s] selected in whichever direction: cut, copy, typing, Delete or Backspace and paste do to [s] what they should. *)
Theorem selection_replaced : forall wake b a s c, selected b a s c ->
  (forall clip, s <> [] -> cua_copy b clip = s) /\
  (forall clip, s <> [] -> snd (cua_cut b clip) = s /\ between (fst (cua_cut b clip)) a c) /\
  (forall t, between (type_text b t) (a ++ t) c) /\
  (forall del, s <> [] -> between (delete_key del b) a c) /\
  (forall st clip q, let '(b', _, _) := paste wake st clip b q in between b' (a ++ filter (fun x => negb (wake x)) (fst (fst (strip_crlf st clip)))) c).
Proof.
  intros wake b a s c H. destruct (selected_anchor _ _ _ _ H) as [x A]. pose proof (delete_selected _ _ _ _ H) as D. pose proof (fun clip => copy_selected _ _ _ _ clip H) as C.
  split; [intros clip Hs; rewrite C; destruct s; [now contradiction Hs|reflexivity]|]. split; [intros clip Hs; split; [cbn [cua_cut snd]; rewrite C; destruct s; [now contradiction Hs|reflexivity]|exact D]|].
  split; [intros t; unfold type_text; rewrite A; now apply insert_between|].
  split.
  - intros del Hs. unfold delete_key. rewrite A. destruct (x =? l_point b)%nat eqn:E; [|exact D]. exfalso. apply Hs. destruct H as [_ [[A' P]|[A' P]]]; rewrite A' in A; injection A as A; rewrite app_length in *; destruct s; [reflexivity|cbn in *; lia|reflexivity|cbn in *; lia].
  - intros st clip q. unfold paste. destruct (strip_crlf st clip) as [[t o] d]. cbn [fst]. rewrite A. now apply insert_between.
Qed.
(** Cut and paste put the text back. *)
Theorem cut_then_paste : forall wake st b a s c q clip, selected b a s c -> s <> [] -> no_newline s -> Forall (fun x => wake x = false) s ->
  let '(b1, clip1) := cua_cut b clip in let '(b2, q2, done) := paste wake st clip1 b1 q in l_text b2 = l_text b /\ l_point b2 = length (a ++ s) /\ q2 = q /\ done = false.
Proof.
  intros wake st b a s c q clip H Hs Hn Hw. destruct (selection_replaced wake b a s c H) as (_ & C & _). destruct (C clip Hs) as [C1 C2]. clear C. destruct (cua_cut b clip) as [b1 clip1]. cbn [fst snd] in *. subst clip1. unfold paste.
  assert (X : strip_crlf st s = (s, [], false)). { unfold strip_crlf. rewrite <- (app_nil_r s), strip_piece by exact Hn. destruct s; [now contradiction Hs|]. cbn [strip_loop fst snd]. now rewrite !app_nil_r. }
  rewrite X. assert (Y : filter (fun x => negb (wake x)) s = s). { clear - Hw. induction Hw as [|x l A B IH]; [reflexivity|]. cbn [filter]. rewrite A. cbn [negb]. now rewrite IH. }
  rewrite Y. pose proof C2 as (_ & _ & N1). rewrite N1. destruct (insert_between _ _ _ s C2) as (T & P & _). cbn [fold_left]. rewrite T, P. destruct H as [E _]. rewrite E, app_assoc. auto.
Qed.
(** What is shown as selected is what is selected. *)
Theorem selection_shown : forall b a s c, selected b a s c -> forall i, in_selection b i = true <-> (length a <= i < length (a ++ s))%nat.
Proof.
  intros b a s c [_ [[A P]|[A P]]] i; unfold in_selection; rewrite A, P; rewrite app_length.
  - destruct (length a <? length a + length s)%nat eqn:E; lia.
  - destruct (length a + length s <? length a)%nat eqn:E; lia.
Qed.
(** Without a selection copy copies the line, cut only copies it, and nothing is deleted by typing. *)
Theorem nothing_selected : forall b clip t, l_anchor b = None -> l_text b <> [] ->
  cua_copy b clip = l_text b /\ fst (cua_cut b clip) = b /\ snd (cua_cut b clip) = l_text b /\ forall a c, between b a c -> between (type_text b t) (a ++ t) c.
Proof.
  intros b clip t A H. assert (C : cua_copy b clip = l_text b). { unfold cua_copy. rewrite A. destruct (l_text b) as [|x l] eqn:E; [now contradiction H|]. cbn [length Nat.ltb Nat.leb Nat.sub skipn]. change (S (length l)) with (length (x :: l)). apply firstn_all. }
  split; [exact C|]. split; [cbn; unfold cua_delete; now rewrite A|]. split; [exact C|]. intros a c B. unfold type_text. rewrite A. now apply insert_between.
Qed.
(** Select all selects the whole line. *)
Theorem all_selected : forall b, selected (cua_select_all b) [] (l_text b) [].
Proof. intros b. split; [cbn [app cua_select_all l_text]; now rewrite app_nil_r|]. left. split; reflexivity. Qed.
(** Moving with Shift keeps the end that is anchored, so the selection runs from where the first such movement began. *)
Theorem selection_grows : forall b moves, l_anchor b = None -> moves <> [] -> let b' := fold_left cua_move moves b in
  l_text b' = l_text b /\ l_anchor b' = Some (l_point b) /\ l_point b' = last moves O.
Proof.
  intros b moves A H. destruct moves as [|m moves]; [now contradiction H|]. cbn [fold_left]. assert (X : forall moves b x, l_anchor b = Some x -> let b' := fold_left cua_move moves b in l_text b' = l_text b /\ l_anchor b' = Some x /\ l_point b' = last moves (l_point b)).
  { clear. induction moves as [|m moves IH]; intros b x A; [auto|]. cbn [fold_left]. destruct (IH (cua_move b m) x) as (T & B & P); [unfold cua_move; cbn; now rewrite A|]. split; [exact T|]. split; [exact B|]. rewrite P. cbn [cua_move l_point]. destruct moves as [|m' moves]; [reflexivity|]. clear. cbn [last]. revert m'. induction moves as [|y moves IH]; intros m'; [reflexivity|apply IH]. }
  destruct (X moves (cua_move b m) (l_point b)) as (T & B & P); [unfold cua_move; cbn; now rewrite A|]. split; [exact T|]. split; [exact B|]. rewrite P. cbn [cua_move l_point]. destruct moves as [|m' moves]; [reflexivity|]. clear. change (last (m :: m' :: moves) O) with (last (m' :: moves) O). revert m'. induction moves as [|y moves IH]; intros m'; [reflexivity|apply IH].
Qed.
(** The cursor and the anchor stay in the line whatever is done. *)
Inductive op := OMove (p : nat) | OAll | OSet (x y : nat) | OCut | OType (t : list N) | OPaste (st : setting) (clip : list N) | OClear | ODelete | OToggle (o l : nat).
Definition apply_op (wake : N -> bool) (b : line) (o : op) : line :=
  match o with
  | OMove p => cua_move b (Nat.min p (length (l_text b)))
  | OAll => cua_select_all b
  | OSet x y => cua_set_selection b x y
  | OCut => fst (cua_cut b [])
  | OType t => type_text b t
  | OPaste st clip => fst (fst (paste wake st clip b []))
  | OClear => clear_selection b
  | ODelete => delete_key clear_selection b
  | OToggle o l => match toggle_slashes b o l with Some b' => b' | None => b end
  end.
Theorem cursor_in_line : forall wake ops b, in_line b -> in_line (fold_left (apply_op wake) ops b).
Proof.
  intros wake ops. induction ops as [|o ops IH]; intros b H; [exact H|]. cbn [fold_left]. apply IH. clear IH.
  destruct o as [p| |x y| |t|st clip| | |o l]; cbn [apply_op].
  - destruct H as [P A]. unfold in_line, cua_move. cbn [l_text l_point l_anchor]. split; [lia|]. destruct (l_anchor b); assumption.
  - unfold in_line, cua_select_all. cbn [l_text l_point l_anchor]. split; lia.
  - unfold in_line, cua_set_selection. cbn [l_text l_point l_anchor]. split; lia.
  - cbn [cua_cut fst]. now apply cua_delete_in_line.
  - unfold type_text. destruct (gone_or_none b H). now apply insert_in_line.
  - unfold paste. destruct (strip_crlf st clip) as [[t o] d]. cbn [fst]. destruct (gone_or_none b H). now apply insert_in_line.
  - destruct H as [P A]. split; [exact P|exact Logic.I].
  - unfold delete_key. destruct (l_anchor b) eqn:A; [|destruct H as [P _]; split; [exact P|exact Logic.I]]. destruct (n =? l_point b)%nat; [destruct H as [P _]; split; [exact P|exact Logic.I]|now apply cua_delete_in_line].
  - unfold toggle_slashes. destruct (last_kind 0 _ =? 47); [|destruct (last_kind 0 _ =? 92); [|exact H]]; (apply insert_in_line; [split; [cbn [set_cursor l_point l_text]; lia|exact Logic.I]|reflexivity]).
Qed.

(** ** C100: toggling slashes *)
(** If the slashes of the word are all of one kind they all become the other kind, if they are mixed they become the first
    kind; nothing else in the line changes, and the cursor is at the end of the word. Without slashes nothing is done. *)
Theorem slashes_toggled : forall b a w c, l_text b = a ++ w ++ c -> in_line b ->
  (Forall (fun x => ~ slash x) w -> toggle_slashes b (length a) (length w) = None) /\
  (forall u k v, w = u ++ k :: v -> Forall (fun x => ~ slash x) u -> slash k ->
    exists b' w', toggle_slashes b (length a) (length w) = Some b' /\ between b' (a ++ w') c /\ same_but_slashes w w' /\
      (Forall (fun x => slash x -> x = k) v -> Forall (fun x => slash x -> x <> k) w') /\
      (Exists (fun x => slash x /\ x <> k) v -> Forall (fun x => slash x -> x = k) w')).
Proof.
  intros b a w c T I1. split.
  - intros H. unfold toggle_slashes. rewrite T, skipn_at, firstn_at, kind_none by exact H. reflexivity.
  - intros u k v E U K.
    assert (S1 : forall k', slash k' -> same_but_slashes w (with_slash k' w)). { intros k' K'. clear - K'. induction w as [|x w IH]; [constructor|]. cbn [with_slash map]. constructor; [|exact IH]. destruct (is_separator x) eqn:E; [right|left; reflexivity]. apply sep_slash in E. auto. }
    assert (W : forall k', slash k' -> Forall (fun x => slash x -> x = k') (with_slash k' w)). { intros k' K'. clear - K'. induction w as [|x w IH]; [constructor|]. cbn [with_slash map]. constructor; [|exact IH]. destruct (is_separator x) eqn:E; [reflexivity|]. intros X. apply sep_slash in X. congruence. }
    assert (K2 : last_kind 0 w = last_kind k v). { rewrite E, kind_skip by exact U. cbn [last_kind]. apply sep_slash in K. rewrite K. reflexivity. }
    assert (Dec : (Forall (fun x => slash x -> x = k) v) \/ (Exists (fun x => slash x /\ x <> k) v)).
    { clear - K. induction v as [|x v [IH|IH]]; [left; constructor| |right; now apply Exists_cons_tl]. destruct (is_separator x) eqn:E; [|left; constructor; [intros X; apply sep_slash in X; congruence|exact IH]]. apply sep_slash in E. destruct (N.eq_dec x k); [left; constructor; auto|right; apply Exists_cons_hd; auto]. }
    destruct Dec as [H|H].
    + assert (K3 : last_kind 0 w = k) by (rewrite K2; apply kind_uniform; auto). destruct (toggle_at b a w c k T K3 K I1) as (b' & Q & R). exists b', (with_slash (if k =? 47 then 92 else 47) w). split; [exact Q|]. split; [exact R|].
      assert (K4 : slash (if k =? 47 then 92 else 47)) by (unfold slash; destruct (k =? 47); auto). split; [now apply S1|]. split.
      * intros _. eapply Forall_impl; [|apply (W _ K4)]. intros x X Y. specialize (X Y). subst x. unfold slash in K. destruct (k =? 47) eqn:Ek; lia.
      * intros X. exfalso. apply Exists_exists in X. destruct X as (x & X1 & X2 & X3). rewrite Forall_forall in H. apply X3, (H x X1 X2).
    + apply Exists_exists in H. destruct H as (x & X1 & X2 & X3). assert (K3 : last_kind 0 w = x) by (rewrite K2; apply (kind_mixed v k k x); auto). destruct (toggle_at b a w c x T K3 X2 I1) as (b' & Q & R). exists b', (with_slash (if x =? 47 then 92 else 47) w). split; [exact Q|]. split; [exact R|].
      assert (K4 : (if x =? 47 then 92 else 47) = k) by (unfold slash in *; destruct (x =? 47) eqn:Ex; lia). rewrite K4. split; [now apply S1|]. split; [|intros _; now apply W].
      intros X. exfalso. rewrite Forall_forall in X. apply X3, (X x X1 X2).
Qed.
(** Twice gives the line back if the slashes were all of one kind. *)
Theorem slashes_toggled_twice : forall b a w c k, l_text b = a ++ w ++ c -> in_line b -> slash k -> In k w -> Forall (fun x => slash x -> x = k) w ->
  exists b1 b2, toggle_slashes b (length a) (length w) = Some b1 /\ toggle_slashes b1 (length a) (length w) = Some b2 /\ l_text b2 = l_text b.
Proof.
  intros b a w c k T I1 K X U. assert (K3 : last_kind 0 w = k). { apply kind_uniform; auto. right. split; [reflexivity|]. apply Exists_exists. eauto. }
  destruct (toggle_at b a w c k T K3 K I1) as (b1 & Q & R). exists b1. set (k' := if k =? 47 then 92 else 47) in *. assert (K4 : slash k') by (unfold slash, k'; destruct (k =? 47); auto).
  set (w' := with_slash k' w) in *. destruct R as (R1 & R2 & R3). rewrite <- app_assoc in R1. assert (L : length w' = length w) by apply map_length.
  assert (K5 : last_kind 0 w' = k'). { apply kind_uniform; [|exact K4|right; split; [reflexivity|]]. - unfold w'. clear. induction w as [|x w IH]; [constructor|]. cbn [with_slash map]. constructor; [|exact IH]. destruct (is_separator x) eqn:E; [reflexivity|]. intros X. apply sep_slash in X. congruence. - apply Exists_exists. exists k'. split; [|exact K4]. unfold w', with_slash. apply in_map_iff. exists k. apply sep_slash in K. rewrite K. auto. }
  assert (I2 : in_line b1) by (unfold in_line; rewrite R1, R2, R3, !app_length; split; [lia|exact Logic.I]).
  destruct (toggle_at b1 a w' c k' R1 K5 K4 I2) as (b2 & Q2 & (R4 & _ & _)). exists b2. rewrite L in Q2. split; [exact Q|]. split; [exact Q2|]. rewrite R4, T. rewrite <- app_assoc. f_equal. f_equal.
  replace (if k' =? 47 then 92 else 47) with k by (unfold k', slash in *; destruct (k =? 47) eqn:E; cbn; lia). unfold w'. clear - U K K4. apply sep_slash in K4. induction w as [|x w IH]; [reflexivity|]. inversion U as [|? ? A B]. subst. cbn [with_slash map]. fold (with_slash k w) (with_slash k' w). unfold with_slash in IH at 1. rewrite IH by exact B. f_equal.
  destruct (is_separator x) eqn:E; [|now rewrite E]. apply sep_slash in E. rewrite K4. symmetry. exact (A E).
Qed.

(** "a CRLF b CRLF c" pasted into "x|y": the line is "xay" and accepted, then b is run, then c is left to be edited *)
Example three_lines : lines (without_cr [97; 13; 10; 98; 13; 10; 99]) [[97]; [98]; [99]] /\ paste (fun _ => false) PCrlf [97; 13; 10; 98; 13; 10; 99] (mkL [120; 121] 1 None) [] = (mkL [120; 97; 121] 2 None, [mkQ [98; 10] [] 0 show_only; mkQ [99] [] 0 show_only], true).
Proof.
  split; [|reflexivity]. cbn [without_cr filter N.eqb Pos.eqb negb]. apply (lines_cons [97] [98; 10; 99]); [constructor; [lia|constructor]|]. apply (lines_cons [98] [99]); [constructor; [lia|constructor]|]. apply (lines_one [99]). constructor; [lia|constructor].
Qed.
Example two_runs : runs [97; 13; 10; 10; 98; 10] [[97]; [98]; []].
Proof.
  apply (runs_cons [97] [13; 10; 10] [98; 10]); [constructor; [unfold newline; lia|constructor]|discriminate|repeat (constructor; [unfold newline; lia|]); constructor|unfold newline; lia|].
  apply (runs_cons [98] [10] []); [constructor; [unfold newline; lia|constructor]|discriminate|constructor; [unfold newline; lia|constructor]|exact Logic.I|]. apply runs_one. constructor.
Qed.
Example a_selection : selected (mkL [97; 98; 99; 100] 1 (Some 3%nat)) [97] [98; 99] [100] /\ cua_cut (mkL [97; 98; 99; 100] 1 (Some 3%nat)) [] = (mkL [97; 100] 1 None, [98; 99]).
Proof. split; [|reflexivity]. split; [reflexivity|]. right. split; reflexivity. Qed.
(** "cd a/b\c d" with the word a/b\c *)
Example mixed_slashes : toggle_slashes (mkL [99; 32; 97; 47; 98; 92; 99; 32; 100] 0 None) 2 5 = Some (mkL [99; 32; 97; 47; 98; 47; 99; 32; 100] 7 None).
Proof. reflexivity. Qed.

Print Assumptions paste_joined.
Print Assumptions paste_lines.
Print Assumptions paste_lines_exist.
Print Assumptions pasted_lines_run.
Print Assumptions paste_cr_refuted.
Print Assumptions paste_wake_refuted.
Print Assumptions selection_exists.
Print Assumptions selection_replaced.
Print Assumptions cut_then_paste.
Print Assumptions selection_shown.
Print Assumptions nothing_selected.
Print Assumptions selection_grows.
Print Assumptions cursor_in_line.
Print Assumptions slashes_toggled.
Print Assumptions slashes_toggled_twice.
Example all_selected_cut : cua_cut (cua_select_all (mkL [97; 98; 99] 1 None)) [] = (mkL [] 0 None, [97; 98; 99]).
Proof. reflexivity. Qed.
Print Assumptions all_selected.
