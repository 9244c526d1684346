(** C101: copying from the previous command with F1, F2 and F3, deleting with F4. *)
From Verif Require Import Base FkModel.
Open Scope N_scope.

(** ** What the keys are to do *)
(** characters are not empty *)
Definition proper (t : list char) : Prop := Forall (fun c => c <> []) t.
Definition text (l : line) : list char := before l ++ after l.
(** [key] is typed there *)
Definition starts (key : list N) (t : list char) : Prop := exists u, concat t = key ++ u.
(** [m] is what stands before the next [key] in [m ++ r] *)
Definition up_to (key : list N) (m r : list char) : Prop :=
  (forall i, (i < length m)%nat -> ~ starts key (skipn i (m ++ r))) /\ (r = [] \/ starts key r).

(** ** Lemmas *)
Lemma bytes_app a b : bytes (a ++ b) = (bytes a + bytes b)%nat.
Proof. unfold bytes. now rewrite concat_app, app_length. Qed.
Lemma bytes_len t : proper t -> (length t <= bytes t)%nat.
Proof. induction 1 as [|c t A B IH]; [cbn; lia|]. change (c :: t) with ([c] ++ t). rewrite bytes_app. unfold bytes at 1. cbn [concat app length]. rewrite app_nil_r. destruct c; [now contradiction A|]. cbn [length]. lia. Qed.
Lemma walk_to a : forall r tmp, proper a -> walk (tmp + bytes a) tmp (a ++ r) = length a.
Proof.
  induction a as [|c a IH]; intros r tmp H.
  - cbn [app length]. destruct r; [reflexivity|]. cbn [walk]. unfold bytes. cbn [concat length]. replace (tmp <? tmp + 0)%nat with false by lia. reflexivity.
  - inversion H as [|x l A B]. subst x l. cbn [app walk]. assert (E : bytes (c :: a) = (length c + bytes a)%nat) by (unfold bytes; cbn [concat]; apply app_length). rewrite E.
    destruct c as [|b c]; [now contradiction A|]. cbn [length]. replace (tmp <? tmp + (S (length c) + bytes a))%nat with true by lia. f_equal. replace (tmp + (S (length c) + bytes a))%nat with ((tmp + length (b :: c)) + bytes a)%nat by (cbn [length]; lia). now apply IH.
Qed.
Lemma point_at a r : proper a -> adjust_point_point (bytes a) (a ++ r) = length a.
Proof. intros H. unfold adjust_point_point. rewrite bytes_app. rewrite Nat.min_l by lia. apply (walk_to a r 0 H). Qed.
Lemma point_same x a r : proper a -> bytes x = bytes a -> adjust_point_point (bytes x) (a ++ r) = length a.
Proof. intros H E. rewrite E. now apply point_at. Qed.
Lemma point_over x t : proper t -> (bytes t <= bytes x)%nat -> adjust_point_point (bytes x) t = length t.
Proof. intros H E. unfold adjust_point_point. rewrite Nat.min_r by exact E. rewrite <- (app_nil_r t) at 2. apply (walk_to t [] 0 H). Qed.
Lemma delta_is n t : proper t -> adjust_point_delta n t = Nat.min n (length t).
Proof. intros H. unfold adjust_point_delta. pose proof (bytes_len t H). lia. Qed.
Lemma prefix_iff a : forall b, is_prefix a b = true <-> exists u, b = a ++ u.
Proof.
  induction a as [|x a IH]; intros b; [split; [intros _; now exists b|reflexivity]|]. destruct b as [|y b]; cbn [is_prefix]; [split; [discriminate|intros [u U]; discriminate]|].
  rewrite Bool.andb_true_iff, IH. split; [intros [A [u U]]; exists u; rewrite U; cbn [app]; f_equal; lia|intros [u U]; injection U as A B; split; [lia|now exists u]].
Qed.
Lemma find_is key m : forall r, up_to key m r -> find_key key (m ++ r) = length m.
Proof.
  induction m as [|c m IH]; intros r [A B].
  - cbn [app length]. destruct B as [->|B]; [reflexivity|]. destruct r as [|c r]; [reflexivity|]. unfold find_key. destruct (is_prefix key (concat (c :: r))) eqn:E; [reflexivity|]. apply prefix_iff in B. congruence.
  - cbn [app find_key]. destruct (is_prefix key (concat (c :: m ++ r))) eqn:E.
    + exfalso. apply (A O); [cbn; lia|]. apply prefix_iff in E. exact E.
    + cbn [length]. f_equal. apply IH. split; [|exact B]. intros i I. apply (A (S i)). cbn [length]. lia.
Qed.
Lemma proper_app a b : proper (a ++ b) <-> proper a /\ proper b.
Proof. apply Forall_app. Qed.
Lemma skipn_at {A} (a r : list A) : skipn (length a) (a ++ r) = r.
Proof. rewrite skipn_app, Nat.sub_diag, skipn_all. reflexivity. Qed.
Lemma firstn_at {A} (a r : list A) : firstn (length a) (a ++ r) = a.
Proof. rewrite firstn_app, Nat.sub_diag, firstn_all. cbn [firstn]. apply app_nil_r. Qed.

(** ** C101 *)
(** What stands before the next key is always defined. *)
Theorem up_to_exists : forall key t, exists m r, t = m ++ r /\ up_to key m r.
Proof.
  intros key. induction t as [|c t (m & r & E & A & B)]; [exists [], []; split; [reflexivity|]; split; [intros i I; cbn in I; lia|now left]|].
  destruct (is_prefix key (concat (c :: t))) eqn:P.
  - exists [], (c :: t). split; [reflexivity|]. split; [intros i I; cbn in I; lia|right; now apply prefix_iff].
  - exists (c :: m), r. split; [cbn [app]; now rewrite <- E|]. split; [|exact B]. intros [|i] I.
    + cbn [skipn app]. rewrite <- E. intros X. apply prefix_iff in X. congruence.
    + apply (A i). cbn [length] in I. lia.
Qed.
(** In the line F1 only moves the cursor. *)
Theorem f1_moves : forall prev n l, (0 < n <= length (after l))%nat -> text (win_f1 prev n l) = text l /\ length (before (win_f1 prev n l)) = (length (before l) + n)%nat.
Proof.
  intros prev n l H. unfold win_f1. replace (n =? 0)%nat with false by lia. replace (n - length (after l) =? 0)%nat with true by lia. unfold text, forward. cbn [before after]. split; [now rewrite <- app_assoc, firstn_skipn|]. rewrite app_length, firstn_length. lia.
Qed.
(** At its end F1 appends the characters of the previous command from the same place on, as many as wanted while there are
    any, if what stands before in the two lines takes the same number of bytes. *)
Theorem f1_copies : forall a r n b, proper (a ++ r) -> bytes b = bytes a -> (0 < n)%nat ->
  win_f1 (Some (a ++ r)) n (mkL b [] false) = mkL (b ++ firstn n r) [] false.
Proof.
  intros a r n b H E Hn. apply proper_app in H. destruct H as [Ha Hr]. unfold win_f1, forward. cbn [before after selecting length]. replace (n =? 0)%nat with false by lia. replace (n - 0 =? 0)%nat with false by lia. rewrite firstn_nil, skipn_nil, app_nil_r.
  rewrite point_same by assumption. rewrite skipn_at. destruct r as [|c r]; [now rewrite firstn_nil, app_nil_r|]. rewrite delta_is by exact Hr. replace (Nat.min (n - 0) (length (c :: r)) =? 0)%nat with false by (cbn [length]; lia). rewrite Nat.sub_0_r. f_equal. f_equal.
  destruct (Nat.le_ge_cases n (length (c :: r))); [now rewrite Nat.min_l|]. rewrite Nat.min_r by assumption. now rewrite firstn_all, firstn_all2.
Qed.
(** If there are fewer characters than wanted after the cursor, F1 goes past them and copies the others. *)
Theorem f1_moves_then_copies : forall a r n b c, proper (a ++ r) -> bytes (b ++ c) = bytes a -> (length c < n)%nat ->
  win_f1 (Some (a ++ r)) n (mkL b c false) = mkL (b ++ c ++ firstn (n - length c) r) [] false.
Proof.
  intros a r n b c H E Hn. pose proof (f1_copies a r (n - length c) (b ++ c) H E ltac:(lia)) as X. rewrite <- app_assoc in X. rewrite <- X.
  unfold win_f1, forward. cbn [before after selecting length]. replace (n =? 0)%nat with false by lia. replace (n - length c =? 0)%nat with false by lia. rewrite (firstn_all2 c) by lia. rewrite (skipn_all2 c) by lia. rewrite firstn_nil, skipn_nil, app_nil_r, Nat.sub_0_r. replace (n - length c =? 0)%nat with false by lia. reflexivity.
Qed.
(** A line longer than the previous command, or as long, is left alone. *)
Theorem f1_nothing_more : forall p n b, proper p -> (bytes p <= bytes b)%nat -> (0 < n)%nat -> win_f1 (Some p) n (mkL b [] false) = mkL b [] false.
Proof.
  intros p n b H E Hn. unfold win_f1, forward. cbn [before after selecting length]. replace (n =? 0)%nat with false by lia. replace (n - 0 =? 0)%nat with false by lia. rewrite firstn_nil, skipn_nil, app_nil_r.
  rewrite point_over by assumption. rewrite skipn_all. reflexivity.
Qed.
(** From an empty line, F1 and F3 in any sequence give the previous command from its beginning, as many characters as were
    asked for together. *)
Theorem f1_rebuilds : forall p counts, proper p -> Forall (fun n => (0 < n)%nat) counts ->
  fold_left (fun l n => win_f1 (Some p) n l) counts (mkL [] [] false) = mkL (firstn (fold_left Nat.add counts O) p) [] false.
Proof.
  intros p counts H P. assert (X : forall counts k, Forall (fun n => (0 < n)%nat) counts -> fold_left (fun l n => win_f1 (Some p) n l) counts (mkL (firstn k p) [] false) = mkL (firstn (fold_left Nat.add counts k) p) [] false); [|apply (X counts O P)].
  clear P counts. induction counts as [|n counts IH]; intros k P; [reflexivity|]. inversion P as [|? ? P1 P2]. subst. cbn [fold_left]. rewrite <- IH by exact P2. f_equal.
  pose proof (f1_copies (firstn k p) (skipn k p) n (firstn k p)) as F. rewrite firstn_skipn in F. rewrite F by auto. f_equal. clear. revert k. induction p as [|c p IH]; intros k; [now rewrite !firstn_nil, skipn_nil, firstn_nil|]. destruct k as [|k]; [reflexivity|]. cbn [Nat.add firstn skipn app]. f_equal. apply IH.
Qed.
(** F3 gives the rest. *)
Theorem f3_copies_rest : forall many a r b, proper (a ++ r) -> bytes b = bytes a -> (length r < many)%nat -> win_f3 many (Some (a ++ r)) (mkL b [] false) = mkL (b ++ r) [] false.
Proof. intros many a r b H E L. unfold win_f3. rewrite f1_copies by (assumption || lia). rewrite firstn_all2 by lia. reflexivity. Qed.
(** F2 overwrites with what stands in the previous command from the same place up to the next key, or to the end if there
    is none; F4 deletes up to the next key, or to the end. *)
Theorem f2_copies : forall a m r key b c s, proper (a ++ m ++ r) -> proper c -> bytes b = bytes a -> key <> [] -> up_to key m r ->
  win_f2 (Some (a ++ m ++ r)) key (mkL b c s) = mkL (b ++ m) (skipn (length m) c) s.
Proof.
  intros a m r key b c s H Hc E K U. apply proper_app in H. destruct H as [Ha _]. unfold win_f2. cbn [before after selecting]. destruct key as [|k key]; [now contradiction K|]. rewrite point_same by assumption. rewrite skipn_at. destruct (m ++ r) as [|x y] eqn:X.
  - apply app_eq_nil in X. destruct X as [-> ->]. cbn [length skipn]. now rewrite app_nil_r.
  - rewrite <- X, find_is by exact U. destruct m as [|c0 m]; [cbn [length Nat.eqb skipn]; now rewrite app_nil_r|]. cbn [length Nat.eqb]. rewrite delta_is by exact Hc. change (S (length m)) with (length (c0 :: m)). rewrite firstn_at. f_equal.
    destruct (Nat.le_ge_cases (length (c0 :: m)) (length c)); [now rewrite Nat.min_l|]. rewrite Nat.min_r by assumption. now rewrite skipn_all, skipn_all2.
Qed.
Theorem f4_deletes : forall b m r key s, key <> [] -> up_to key m r -> win_f4 key (mkL b (m ++ r) s) = mkL b r s.
Proof. intros b m r key s K U. unfold win_f4. destruct key; [now contradiction K|]. cbn [before after selecting]. rewrite find_is by exact U. now rewrite skipn_at. Qed.
(** The place in the previous command is the number of bytes, not of characters: after e with an accent, which has two
    bytes, F1 copies the third character of "abc". *)
Theorem f1_place_refuted : exists p b c, proper p /\ proper b /\ length b = 1%nat /\ nth_error p 1 = Some c /\ win_f1 (Some p) 1 (mkL b [] false) <> mkL (b ++ [c]) [] false.
Proof.
  exists [[97]; [98]; [99]], [[195; 169]], [98]. split; [repeat (constructor; [discriminate|]); constructor|]. split; [repeat (constructor; [discriminate|]); constructor|]. split; [reflexivity|]. split; [reflexivity|]. vm_compute. discriminate.
Qed.

(** "abcde" is the previous command *)
Example f1_twice_f3 : fold_left (fun l n => win_f1 (Some [[97]; [98]; [99]; [100]; [101]]) n l) [1; 1; 999]%nat (mkL [] [] false) = mkL [[97]; [98]; [99]; [100]; [101]] [] false.
Proof. reflexivity. Qed.
(** "x|yzw" and F2 d: "xbc|w" *)
Example f2_to_d : up_to [100] [[98]; [99]] [[100]; [101]] /\ win_f2 (Some [[97]; [98]; [99]; [100]; [101]]) [100] (mkL [[120]] [[121]; [122]; [119]] false) = mkL [[120]; [98]; [99]] [[119]] false.
Proof.
  split; [|reflexivity]. split; [|right; exists [101]; reflexivity]. intros [|[|i]] I [u U]; [discriminate|discriminate|cbn in I; lia].
Qed.
Example f4_to_z : win_f4 [122] (mkL [[120]] [[121]; [122]; [119]] false) = mkL [[120]] [[122]; [119]] false.
Proof. reflexivity. Qed.

Print Assumptions up_to_exists.
Print Assumptions f1_moves.
Print Assumptions f1_copies.
Print Assumptions f1_nothing_more.
Print Assumptions f1_rebuilds.
Print Assumptions f3_copies_rest.
Print Assumptions f2_copies.
Print Assumptions f4_deletes.
Print Assumptions f1_place_refuted.
(** "ab|c" with F1 three times as many: moves over c and copies de *)
Example f1_moves_then_copies_example : win_f1 (Some [[97]; [98]; [99]; [100]; [101]]) 3 (mkL [[97]; [98]] [[99]] false) = mkL [[97]; [98]; [99]; [100]; [101]] [] false.
Proof. reflexivity. Qed.
Print Assumptions f1_moves_then_copies.
