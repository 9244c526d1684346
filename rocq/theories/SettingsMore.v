(** C32, C34 and C68: what the texts of values mean, what clearing a setting gives and what is saved. *)
From Verif Require Import Base ColorModel ColorSpec SettingsModel SettingsSpec SettingsProofs SettingsFile SettingsLoad SettingsProperties.
Arguments dec : simpl never.

(** ** What texts mean *)
(** The number a text of digits only stands for (numbers too large for an int are the largest int). *)
Definition number_is (t : bytes) (z : Z) : Prop :=
  t <> [] /\ Forall (fun c => is_digit c = true) t /\ z = Z.min 2147483647 (Z.of_N (undec 0 t)).

(** [t] with spaces and tabs removed from its start, and these and line ends from its end. *)
Definition trimmed (t u : bytes) : Prop :=
  (exists a b, t = a ++ u ++ b /\ Forall (fun c => In c [SPC; TAB]) a /\ Forall (fun c => In c [SPC; TAB; CR; LF]) b) /\
  (forall c r, u = c :: r -> ~ In c [SPC; TAB]) /\ (forall r c, u = r ++ [c] -> ~ In c [SPC; TAB; CR; LF]).

Definition bool_word (w : bytes) (b : bool) : Prop :=
  In (w, b) [(lit "true", true); (lit "on", true); (lit "yes", true); (lit "false", false); (lit "off", false); (lit "no", false)].

(** The first digits of a text. *)
Definition digits_first (t d : bytes) : Prop :=
  d <> [] /\ Forall (fun c => is_digit c = true) d /\ exists r, t = d ++ r /\ forall c q, r = c :: q -> is_digit c = false.

(** ** Trimming *)
Lemma existsb_in set c : existsb (Ascii.eqb c) set = true <-> In c set.
Proof.
  rewrite existsb_exists. split.
  - intros (x & I & E). apply Ascii.eqb_eq in E. subst. exact I.
  - intro I. exists c. split; auto. apply Ascii.eqb_refl.
Qed.
Lemma drop_in_app set a b : Forall (fun c => In c set) a -> (forall c r, b = c :: r -> ~ In c set) -> drop_in set (a ++ b) = b.
Proof.
  intros F H. induction F as [|c a I F IH]; cbn [app drop_in].
  - destruct b as [|c r]; auto. cbn [drop_in]. destruct (existsb (Ascii.eqb c) set) eqn:E; auto.
    apply existsb_in in E. exfalso. apply (H c r); auto.
  - apply existsb_in in I. rewrite I. exact IH.
Qed.
Lemma drop_in_split set l : exists a, l = a ++ drop_in set l /\ Forall (fun c => In c set) a /\ forall c r, drop_in set l = c :: r -> ~ In c set.
Proof.
  induction l as [|c l IH]; cbn [drop_in].
  - exists []. split; auto. split; auto. discriminate.
  - destruct (existsb (Ascii.eqb c) set) eqn:E.
    + destruct IH as (a & A & F & H). exists (c :: a). split; [cbn; congruence|]. split; auto. apply Forall_cons; auto. apply existsb_in. exact E.
    + exists []. split; auto. split; auto. intros x r X. injection X as <- <-. intro I. apply existsb_in in I. congruence.
Qed.
Lemma trimmed_trim t u : trimmed t u <-> str_trim t = u.
Proof.
  unfold str_trim. split.
  - intros ((a & b & -> & A & B) & H1 & H2). rewrite !rev_app_distr.
    assert (B' : Forall (fun c => In c [SPC; TAB; CR; LF]) (rev b)) by (apply Forall_rev; auto).
    destruct u as [|c u].
    + cbn [rev app]. rewrite app_nil_r. rewrite <- (app_nil_r (rev b ++ rev a)). rewrite drop_in_app; [reflexivity| |discriminate].
      apply Forall_app. split; auto. apply Forall_rev. eapply Forall_impl; [|exact A]. intros x X. cbn in *. tauto.
    + rewrite <- app_assoc. rewrite drop_in_app; auto.
      * rewrite rev_app_distr, !rev_involutive. apply drop_in_app; auto.
      * intros x r X. destruct (exists_last (l := c :: u)) as (v & y & V); [discriminate|]. rewrite V in X, H2.
        rewrite rev_app_distr in X. cbn in X. injection X as <- _. apply (H2 v y). reflexivity.
  - intro E. destruct (drop_in_split [SPC; TAB; CR; LF] (rev t)) as (b & B & FB & HB).
    set (v := drop_in [SPC; TAB; CR; LF] (rev t)) in *.
    destruct (drop_in_split [SPC; TAB] (rev v)) as (a & A & FA & HA). rewrite E in A, HA.
    assert (T : t = a ++ u ++ rev b).
    { rewrite <- (rev_involutive t), B, rev_app_distr, A, <- app_assoc. reflexivity. }
    split; [|split].
    + exists a, (rev b). split; auto. split; auto. apply Forall_rev. exact FB.
    + exact HA.
    + intros r c U. apply (HB c (rev r ++ rev a)). rewrite <- (rev_involutive v), A, U, !rev_app_distr. reflexivity.
Qed.

Lemma leading_split t : exists r, t = leading_digits t ++ r /\ Forall (fun c => is_digit c = true) (leading_digits t) /\ forall c q, r = c :: q -> is_digit c = false.
Proof.
  induction t as [|c t IH]; cbn [leading_digits].
  - exists []. split; auto. split; auto. discriminate.
  - destruct (is_digit c) eqn:E.
    + destruct IH as (r & A & F & H). exists r. split; [cbn; congruence|]. split; auto.
    + exists (c :: t). split; auto. split; auto. intros x q X. injection X as <- <-. exact E.
Qed.
Lemma leading_app d r : Forall (fun c => is_digit c = true) d -> (forall c q, r = c :: q -> is_digit c = false) -> leading_digits (d ++ r) = d.
Proof.
  intros F H. induction F as [|c d D F IH]; cbn [app leading_digits].
  - destruct r as [|c r]; auto. cbn [leading_digits]. rewrite (H c r); auto.
  - rewrite D, IH. reflexivity.
Qed.
(** Digits stand for 0 when all are 0. *)
Lemma undec_zero d : forall a, undec a d = 0%N -> a = 0%N /\ forall c, In c d -> is_digit c = true -> c = "0"%char.
Proof.
  induction d as [|c d IH]; intros a E; cbn [undec] in E.
  - split; auto. intros c [].
  - apply IH in E as [E1 E2]. split; [lia|]. intros x [->|X] D; auto.
    unfold is_digit in D. assert (N_of_ascii x = 48%N) by lia. rewrite <- (ascii_N_embedding x), H. reflexivity.
Qed.
Lemma zero_undec d : forall a, a = 0%N -> Forall (fun c => c = "0"%char) d -> undec a d = 0%N.
Proof.
  induction d as [|c d IH]; intros a E F; cbn [undec]; auto. apply IH; [|apply Forall_inv_tail in F; auto].
  apply Forall_inv in F. cbn beta in F. subst. reflexivity.
Qed.

Lemma digit_no_word c r : is_digit c = true ->
  iequal (c :: r) (lit "true") = false /\ iequal (c :: r) (lit "false") = false /\ iequal (c :: r) (lit "on") = false /\
  iequal (c :: r) (lit "off") = false /\ iequal (c :: r) (lit "yes") = false /\ iequal (c :: r) (lit "no") = false.
Proof. destruct c as [[] [] [] [] [] [] [] []]; intro H; try discriminate H; repeat split. Qed.

Section P.
Variable same : bytes -> bytes -> bool.

(** Option number [i] of an enum setting is named by [t]: by its name, or by its number. *)
Definition picks (o t : bytes) (i : nat) : Prop :=
  exists n, nth_error (options_of o) i = Some n /\ (same n t = true \/ number_is t (Z.of_nat i)).

Lemma clamp_pos n : clamp (Z.of_N n) = Z.min 2147483647 (Z.of_N n).
Proof. unfold clamp. lia. Qed.

Lemma digits_all t : forallb is_digit t = true <-> Forall (fun c => is_digit c = true) t.
Proof. rewrite forallb_forall, Forall_forall. reflexivity. Qed.

Lemma atoi_digits t : t <> [] -> Forall (fun c => is_digit c = true) t -> atoi t = Z.min 2147483647 (Z.of_N (undec 0 t)).
Proof.
  intros N F. destruct t as [|c r]; [congruence|]. pose proof (Forall_inv F) as D. cbn beta in D.
  unfold atoi. rewrite skip_space_id by (apply digit_value; auto).
  rewrite (digit_not c "-"), (digit_not c "+") by auto.
  rewrite leading_digits_all by (apply digits_all; auto). apply clamp_pos.
Qed.

(** The number given is counted down. *)
Lemma enum_exact os t : forall b k z, enum_loop same os t b k = Some z <->
  exists i n, z = (k + Z.of_nat i)%Z /\ nth_error os i = Some n /\ (same n t = true \/ b = Z.of_nat i) /\
    forall j m, j < i -> nth_error os j = Some m -> same m t = false /\ b <> Z.of_nat j.
Proof.
  induction os as [|o os IH]; intros b k z; cbn [enum_loop].
  - split; [discriminate|]. intros (i & n & _ & E & _). destruct i; discriminate.
  - destruct ((b =? 0)%Z || same o t) eqn:E.
    + split.
      * intro H. injection H as <-. exists 0, o. split; [lia|]. split; [reflexivity|]. split.
        -- apply orb_true_iff in E as [E|E]; [right; lia|left; auto].
        -- intros j m L. lia.
      * intros (i & n & -> & N & P & F). destruct i as [|i]; [f_equal; lia|].
        destruct (F 0 o) as [F1 F2]; [lia|reflexivity|]. rewrite F1 in E. rewrite orb_false_r in E. lia.
    + apply orb_false_iff in E as [E1 E2]. rewrite IH. split.
      * intros (i & n & -> & N & P & F). exists (S i), n. split; [lia|]. split; [exact N|]. split; [destruct P; [auto|right; lia]|].
        intros [|j] m L M; [cbn in M; injection M as <-; split; [auto|lia]|]. destruct (F j m) as [F1 F2]; [lia|exact M|]. split; [auto|lia].
      * intros (i & n & -> & N & P & F). destruct i as [|i].
        -- cbn in N. injection N as ->. destruct P; [congruence|lia].
        -- exists i, n. split; [lia|]. split; [exact N|]. split; [destruct P; [auto|right; lia]|].
           intros j m L M. destruct (F (S j) m) as [F1 F2]; [lia|exact M|]. split; [auto|lia].
Qed.

(** C68: an enum setting is set to an option by its name, or by its number counting from 0; the first that fits is taken, and
    nothing else is accepted. *)
Theorem options_exact o t z : parse_val same (KEnum o) t = Some (VInt z) <->
  exists i, z = Z.of_nat i /\ picks o t i /\ forall j, j < i -> ~ picks o t j.
Proof.
  unfold parse_val.
  set (b := match t with c :: _ => if is_digit c then if forallb is_digit t then atoi t else (-1)%Z else (-1)%Z | [] => (-1)%Z end).
  assert (B : forall i : nat, b = Z.of_nat i <-> number_is t (Z.of_nat i)).
  { intro i. unfold number_is. unfold b. destruct t as [|c r] eqn:T.
    - split; [lia|]. intros [X _]. congruence.
    - rewrite <- T. destruct (forallb is_digit t) eqn:D.
      + apply digits_all in D. replace (is_digit c) with true by (rewrite T in D; apply Forall_inv in D; auto).
        rewrite atoi_digits by (auto; rewrite T; discriminate). split; [intro E; split; [rewrite T; discriminate|]; split; auto|intros (_ & _ & E); auto].
      + destruct (is_digit c); (split; [lia|]; intros (_ & X & _); apply digits_all in X; congruence). }
  clearbody b. split.
  - intro H. destruct (enum_loop same (options_of o) t b 0) as [z'|] eqn:E; [|discriminate].
    injection H as ->. apply enum_exact in E as (i & n & -> & N & P & F). exists i. split; [lia|]. split.
    + exists n. split; auto. destruct P as [P|P]; [auto|]. right. apply B. exact P.
    + intros j L (m & M & [X|X]); destruct (F j m L M) as [F1 F2]; [congruence|]. apply B in X. congruence.
  - intros (i & -> & (n & N & P) & F). replace (enum_loop same (options_of o) t b 0) with (Some (Z.of_nat i)); [reflexivity|].
    symmetry. apply enum_exact. exists i, n. split; [lia|]. split; [exact N|]. split; [destruct P as [P|P]; [auto|right; apply B; auto]|].
    intros j m L M. split.
    + destruct (same m t) eqn:E; auto. exfalso. apply (F j L). exists m. auto.
    + intro X. apply (F j L). exists m. split; auto. right. apply B. exact X.
Qed.

(** C68: a boolean setting accepts true, on, yes, false, off and no, with letters of any case and blanks around, and what
    starts with digits, meaning true unless all of them are 0; nothing else. *)
Theorem booleans_exact t b : parse_val same KBool t = Some (VBool b) <->
  exists u, trimmed t u /\
    ((exists w, bool_word w b /\ alike u w) \/ exists d, digits_first u d /\ (b = true <-> exists c, In c d /\ c <> "0"%char)).
Proof.
  assert (W : forall u w, alike u (lit w) -> iequal u (lit w) = true) by (intros; apply iequal_alike; auto).
  split.
  - intro H. exists (str_trim t). split; [apply trimmed_trim; reflexivity|]. cbn [parse_val] in H. cbv zeta in H.
    set (u := str_trim t) in *.
    destruct (iequal u (lit "true")) eqn:E1; [injection H as <-; left; exists (lit "true"); split; [cbn; auto|apply iequal_alike; auto]|].
    destruct (iequal u (lit "false")) eqn:E2; [injection H as <-; left; exists (lit "false"); split; [unfold bool_word; cbn; auto 10|apply iequal_alike; auto]|].
    destruct (iequal u (lit "on")) eqn:E3; [injection H as <-; left; exists (lit "on"); split; [unfold bool_word; cbn; auto 10|apply iequal_alike; auto]|].
    destruct (iequal u (lit "off")) eqn:E4; [injection H as <-; left; exists (lit "off"); split; [unfold bool_word; cbn; auto 10|apply iequal_alike; auto]|].
    destruct (iequal u (lit "yes")) eqn:E5; [injection H as <-; left; exists (lit "yes"); split; [unfold bool_word; cbn; auto 10|apply iequal_alike; auto]|].
    destruct (iequal u (lit "no")) eqn:E6; [injection H as <-; left; exists (lit "no"); split; [unfold bool_word; cbn; auto 10|apply iequal_alike; auto]|].
    right. destruct u as [|c r] eqn:U; [discriminate|]. destruct (is_digit c) eqn:D; [|discriminate]. injection H as H.
    exists (leading_digits (c :: r)). split.
    + split; [cbn [leading_digits]; rewrite D; discriminate|]. destruct (leading_split (c :: r)) as (q & Q & F & N). split; auto. exists q. auto.
    + unfold atoi in H. rewrite skip_space_id in H by (apply digit_value; auto).
      rewrite (digit_not c "-"), (digit_not c "+") in H by auto. rewrite clamp_pos in H.
      destruct (leading_split (c :: r)) as (q & _ & F & _). set (d := leading_digits (c :: r)) in *. rewrite <- H. split.
      * intro B. apply negb_true_iff in B. destruct (Forall_Exists_dec (fun c => c = "0"%char) (fun c => ascii_dec c "0") d) as [A|A].
        -- rewrite (zero_undec d 0 eq_refl A) in B. cbn in B. lia.
        -- apply Exists_exists in A. exact A.
      * intros (x & I & X). apply negb_true_iff. destruct (N.eq_dec (undec 0 d) 0) as [Z|Z]; [|lia].
        destruct (undec_zero d 0 Z) as [_ A]. exfalso. apply X. apply A; auto. rewrite Forall_forall in F. apply F. exact I.
  - intros (u & T & H). apply trimmed_trim in T. cbn [parse_val]. cbv zeta. rewrite T. destruct H as [(w & B & A)|(d & (N & F & r & R & Q) & B)].
    + unfold bool_word in B. cbn in B.
      assert (K : forall x, iequal u x = iequal w x).
      { intro x. destruct (iequal w x) eqn:E.
        - apply iequal_alike. apply iequal_alike in E. unfold alike in *. congruence.
        - apply iequal_false. apply iequal_false in E. unfold alike in *. congruence. }
      rewrite !K. destruct B as [B|[B|[B|[B|[B|[B|[]]]]]]]; injection B as <- <-; reflexivity.
    + destruct d as [|c d]; [congruence|]. pose proof (Forall_inv F) as D. cbn beta in D.
      assert (U : u = c :: d ++ r) by (rewrite R; reflexivity).
      rewrite U. destruct (digit_no_word c (d ++ r) D) as (-> & -> & -> & -> & -> & ->). rewrite D.
      f_equal. f_equal. rewrite <- U, R. unfold atoi.
      replace (skip_space ((c :: d) ++ r)) with ((c :: d) ++ r) by (symmetry; apply skip_space_id; apply digit_value; auto).
      cbn [app]. rewrite (digit_not c "-"), (digit_not c "+") by auto. change (c :: d ++ r) with ((c :: d) ++ r).
      rewrite leading_app by auto. rewrite clamp_pos. apply Bool.eq_iff_eq_true. rewrite B. split.
      * intro E. apply negb_true_iff in E. destruct (Forall_Exists_dec (fun c => c = "0"%char) (fun c => ascii_dec c "0") (c :: d)) as [A|A].
        -- rewrite (zero_undec (c :: d) 0 eq_refl A) in E. cbn in E. lia.
        -- apply Exists_exists in A. exact A.
      * intros (x & I & X). apply negb_true_iff. destruct (N.eq_dec (undec 0 (c :: d)) 0) as [Z|Z]; [|lia].
        destruct (undec_zero (c :: d) 0 Z) as [_ A]. exfalso. apply X. apply A; auto. rewrite Forall_forall in F. apply F. exact I.
Qed.

(** C68: an integer setting accepts what starts with a digit or a minus sign: the digits that follow count (none: 0), within
    the range of an int. *)
Theorem integers_exact t z : parse_val same KInt t = Some (VInt z) <->
  (exists d, digits_first t d /\ z = Z.min 2147483647 (Z.of_N (undec 0 d))) \/
  (exists u, t = "-"%char :: u /\ exists d r, u = d ++ r /\ Forall (fun c => is_digit c = true) d /\ (forall c q, r = c :: q -> is_digit c = false) /\
     z = Z.max (-2147483648) (- Z.of_N (undec 0 d))).
Proof.
  cbn [parse_val]. split.
  - intro H. destruct t as [|c r]; [discriminate|]. destruct (is_digit c) eqn:D; cbn [orb] in H.
    + left. injection H as H. unfold atoi in H. rewrite skip_space_id in H by (apply digit_value; auto).
      rewrite (digit_not c "-"), (digit_not c "+") in H by auto. rewrite clamp_pos in H.
      exists (leading_digits (c :: r)). split; auto.
      split; [cbn [leading_digits]; rewrite D; discriminate|]. destruct (leading_split (c :: r)) as (q & Q & F & N). split; auto. exists q. auto.
    + destruct (Ascii.eqb c "-") eqn:M; [|discriminate]. apply Ascii.eqb_eq in M. subst c. right. exists r. split; auto.
      injection H as H. change (atoi ("-"%char :: r)) with (clamp (- Z.of_N (undec 0 (leading_digits r)))) in H.
      destruct (leading_split r) as (q & Q & F & N). exists (leading_digits r), q. split; auto. split; auto. split; auto.
      rewrite <- H. unfold clamp. lia.
  - intros [(d & (N & F & r & -> & Q) & ->)|(u & -> & d & r & -> & F & Q & ->)].
    + destruct d as [|c d]; [congruence|]. pose proof (Forall_inv F) as D. cbn beta in D. cbn [app]. rewrite D. cbn [orb].
      do 2 f_equal. change (c :: d ++ r) with ((c :: d) ++ r). unfold atoi.
      replace (skip_space ((c :: d) ++ r)) with ((c :: d) ++ r) by (symmetry; apply skip_space_id; apply digit_value; auto).
      cbn [app]. rewrite (digit_not c "-"), (digit_not c "+") by auto. change (c :: d ++ r) with ((c :: d) ++ r).
      rewrite leading_app by auto. apply clamp_pos.
    + change (is_digit "-" || Ascii.eqb "-" "-") with true. cbv iota.
      change (atoi ("-"%char :: d ++ r)) with (clamp (- Z.of_N (undec 0 (leading_digits (d ++ r))))).
      rewrite leading_app by auto. do 2 f_equal. unfold clamp. lia.
Qed.

(** ** Clearing *)
(** The default of [s]: the custom default for its name, if it is one the setting accepts, or else the declared one. *)
Definition declared_default (s : setting) : val :=
  match s_kind s, s_default s with KColor, VStr d => match parse_color d with Some c => VStr c | None => VStr [] end | _, v => v end.
Definition default_of (customs : list loaded) (s : setting) (v : val) : Prop :=
  (exists x, In x customs /\ l_name x = s_name s /\ parse_val same (s_kind s) (l_value x) = Some v) \/
  ((forall x, In x customs -> l_name x = s_name s -> parse_val same (s_kind s) (l_value x) = None) /\ v = declared_default s).

Lemma eqb_val_eq a b : eqb_val a b = true <-> a = b.
Proof.
  destruct a, b; cbn [eqb_val]; split; intro H; try discriminate.
  - f_equal. apply eqb_prop. exact H.
  - injection H as ->. apply eqb_reflx.
  - f_equal. lia.
  - injection H as ->. apply Z.eqb_refl.
  - f_equal. apply eqb_bytes_eq. exact H.
  - injection H as ->. apply eqb_bytes_eq. reflexivity.
Qed.
Lemma custom_sorted d : StronglySorted before (load_custom d).
Proof.
  unfold load_custom. destruct d as [c|]; [|apply SSorted_nil].
  assert (G : forall l m, StronglySorted before m -> StronglySorted before (fold_left (fun m a => emplace (mkld (as_name a) (as_value a) [] false) m) l m)).
  { induction l as [|a l IH]; intros m H; auto. cbn [fold_left]. apply IH. apply emplace_sorted. exact H. }
  apply G. apply SSorted_nil.
Qed.
Lemma sorted_once m : StronglySorted before m -> forall x y, In x m -> In y m -> l_name x = l_name y -> x = y.
Proof.
  induction 1 as [|e m F IH S]; intros x y X Y E; [destruct X|]. rewrite Forall_forall in S.
  destruct X as [->|X], Y as [->|Y]; auto.
  - specialize (S y Y). unfold before in S. rewrite E, ltb_irrefl in S. discriminate.
  - specialize (S x X). unfold before in S. rewrite E, ltb_irrefl in S. discriminate.
Qed.
Lemma custom_some d n x : In x (load_custom d) -> l_name x = n -> custom_of (load_custom d) n = Some (l_value x).
Proof.
  intros X E. unfold custom_of, loaded_find. destruct (find _ _) as [y|] eqn:F.
  - apply find_some in F as [Y N]. apply eqb_bytes_eq in N. cbn. do 2 f_equal.
    apply (sorted_once _ (custom_sorted d)); auto. congruence.
  - apply (find_none _ _ F) in X. rewrite E in X. rewrite (proj2 (eqb_bytes_eq n n) eq_refl) in X. discriminate.
Qed.
Lemma reset_exact d s : declared same s ->
  let s' := reset same (custom_of (load_custom d)) s in
  declaration s' = declaration s /\ default_of (load_custom d) s (s_val s') /\ (s_save s' = true <-> s_val s' <> declared_default s).
Proof.
  intro D. cbv zeta. unfold reset. cbv zeta. set (v := reset_val same s (custom_of (load_custom d) (s_name s))).
  split; [reflexivity|]. cbn [with_val s_val s_save]. split.
  - unfold v, reset_val. destruct (custom_of (load_custom d) (s_name s)) as [t|] eqn:C.
    + unfold custom_of in C. destruct (loaded_find (s_name s) (load_custom d)) as [x|] eqn:L; [|discriminate]. injection C as <-.
      unfold loaded_find in L. apply find_some in L as [I N]. apply eqb_bytes_eq in N.
      destruct (parse_val same (s_kind s) (l_value x)) as [w|] eqn:P; [left; exists x; auto|].
      right. split.
      * intros y Y E. rewrite (sorted_once _ (custom_sorted d) y x Y I); auto. congruence.
      * unfold declared_default. pose proof (d_default _ _ D) as DD. destruct (s_kind s), (s_default s); auto.
        destruct DD as (c & -> & _). reflexivity.
    + right. split.
      * intros y Y E. rewrite (custom_some d (s_name s) y Y E) in C. discriminate.
      * unfold declared_default. pose proof (d_default _ _ D) as DD. destruct (s_kind s), (s_default s); auto.
        destruct DD as (c & -> & _). reflexivity.
  - rewrite negb_true_iff. assert (G : is_default s v = true <-> v = declared_default s).
    { unfold is_default, declared_default. pose proof (d_default _ _ D) as DD.
      destruct (s_kind s) eqn:K; try apply eqb_val_eq.
      destruct (s_default s) as [b|z|dd]; try contradiction. destruct DD as (c & -> & _). destruct v as [b|z|x].
      - split; discriminate.
      - split; discriminate.
      - rewrite eqb_bytes_eq. split; [intros ->; reflexivity|intro H; injection H; auto]. }
    destruct (is_default s v); split; intro H; try discriminate; auto.
    + exfalso. apply H. apply G. reflexivity.
    + intro X. apply G in X. discriminate.
Qed.

Lemma find_one reg s n : registry same reg -> In s reg -> alike (s_name s) n ->
  exists a b, reg = a ++ s :: b /\ Forall (fun x => named n x = false) a /\ Forall (fun x => named n x = false) b /\ findable reg n = Some n.
Proof.
  intros [_ R] I A. apply in_split in I as (a & b & ->). exists a, b. split; auto.
  assert (X : forall y, In y (a ++ b) -> ~ alike (s_name y) n).
  { intros y Y. assert (G : Forall (fun y => ~ alike (s_name y) (s_name s)) (a ++ b)).
    { clear Y y A. induction a as [|x a IH]; cbn [app] in *.
      - inversion R as [|? ? F P]; subst. eapply Forall_impl; [|exact F]. intros y Y Z. apply Y. unfold alike in *. congruence.
      - inversion R as [|? ? F P]; subst. apply Forall_cons; [|apply IH; exact P]. rewrite Forall_forall in F. apply F. apply in_or_app. right. left. reflexivity. }
    rewrite Forall_forall in G. intro Z. apply (G y Y). unfold alike in *. congruence. }
  split; [|split].
  - apply Forall_forall. intros y Y. apply iequal_false. apply X. apply in_or_app. auto.
  - apply Forall_forall. intros y Y. apply iequal_false. apply X. apply in_or_app. auto.
  - unfold findable. replace (existsb (named n) (a ++ s :: b)) with true; auto. symmetry. apply existsb_exists. exists s. split; [apply in_or_app; right; left; reflexivity|].
    apply iequal_alike. exact A.
Qed.

(** C68: clearing a setting gives it its default, and it is then to be saved just when this is not the declared default;
    other settings and the entries of undeclared ones stay as they are. *)
Theorem cleared d st s n : session same d st -> In s (st_reg st) -> alike (s_name s) n ->
  exists a b s', st_reg st = a ++ s :: b /\ st_reg (clear_setting same st n) = a ++ s' :: b /\
    declaration s' = declaration s /\ default_of (load_custom d) s (s_val s') /\ (s_save s' = true <-> s_val s' <> declared_default s) /\
    st_loaded (clear_setting same st n) = st_loaded st.
Proof.
  intros H I A. destruct (session_settled same d st H) as [T C]. destruct (ok_reg _ _ T) as [D R].
  destruct (find_one (st_reg st) s n (conj D R) I A) as (a & b & E & FA & FB & FN).
  exists a, b, (reset same (custom_of (load_custom d)) s). split; auto.
  rewrite Forall_forall in D. destruct (reset_exact d s (D s I)) as (P1 & P2 & P3).
  unfold clear_setting. rewrite FN. cbn [st_reg st_loaded]. split; [|split; [exact P1|split; [exact P2|split; [exact P3|reflexivity]]]].
  rewrite E, C. apply update_at; auto. apply iequal_alike. exact A.
Qed.

(** C68: without a settings file every setting has its default. *)
Theorem defaults_loaded d st : registry same (st_reg st) ->
  Forall2 (fun s s' => declaration s' = declaration s /\ default_of (load_custom d) s (s_val s') /\ (s_save s' = true <-> s_val s' <> declared_default s))
    (st_reg st) (st_reg (load same st d None)).
Proof.
  intros [D _]. unfold load. cbv zeta. cbn [st_reg]. induction D as [|s l D F IH]; cbn [map]; [apply Forall2_nil|].
  apply Forall2_cons; auto. apply (reset_exact d s D).
Qed.

(** C68: setting a setting gives it what the text stands for, to be saved; a text it does not accept changes nothing, and
    this is reported.  Other settings and the entries of undeclared ones stay as they are. *)
Theorem setting_set d st s n t : session same d st -> In s (st_reg st) -> alike (s_name s) n ->
  match parse_val same (s_kind s) t with
  | None => set_setting same st n t None = (st, false)
  | Some v => exists a b st', set_setting same st n t None = (st', true) /\ st_reg st = a ++ s :: b /\
                st_reg st' = a ++ mkset (s_name s) (s_desc s) (s_kind s) (s_default s) v true :: b /\ st_loaded st' = st_loaded st
  end.
Proof.
  intros H I A. destruct (session_settled same d st H) as [T C].
  destruct (find_one (st_reg st) s n (ok_reg _ _ T) I A) as (a & b & E & FA & FB & FN).
  assert (Q : find (named n) (st_reg st) = Some s).
  { rewrite E. clear - FA A. induction FA as [|x a X F IH]; cbn [app find].
    - replace (named n s) with true; auto. symmetry. apply iequal_alike. exact A.
    - rewrite X. exact IH. }
  assert (Nm : named n s = true) by (apply iequal_alike; exact A).
  unfold set_setting. rewrite FN, Q. unfold set_text. destruct (parse_val same (s_kind s) t) as [v|] eqn:P.
  - exists a, b, (mkst (a ++ with_val s v true :: b) (st_loaded st) (st_custom st)). cbn [snd st_reg st_loaded]. split; [|split; [exact E|split; reflexivity]].
    f_equal. f_equal. rewrite E, (update_at _ _ _ _ _ FA Nm). rewrite P. reflexivity.
  - cbn [snd]. f_equal. rewrite E, (update_at _ _ _ _ _ FA Nm). rewrite P. cbn [fst]. rewrite <- E. destruct st; reflexivity.
Qed.

(** C68: the file written has the settings to be saved, each with its value, and no other declared one. *)
Theorem saved_exact d st f st1 s : session same d st -> colors_ok (st_reg st) -> save st = Some (f, st1) -> In s (st_reg st) ->
  (s_save s = true -> exists t, describe_val (s_kind s) (s_val s) true = Some t /\
     exists a, In a (read_file f) /\ as_name a = s_name s /\ parse_val same (s_kind s) (as_value a) = Some (s_val s)) /\
  (s_save s = false -> forall a, In a (read_file f) -> as_name a <> s_name s).
Proof.
  intros H C SV I. destruct (session_settled same d st H) as [T _]. rewrite (save_content same st T C) in SV. injection SV as <- _.
  rewrite (read_content same st T C). pose proof (full _ (ok_vals _ _ T) C) as V. destruct (ok_reg _ _ T) as [D R].
  rewrite Forall_forall in D, V. split.
  - intro Sv. destruct (describe_round same (s_kind s) (s_val s)) as (t & D1 & D2); [apply (V s I)|apply opts_of_decl; auto|].
    exists t. split; auto. exists (mkas (s_name s) (migrate (s_name s) t) (unlines (s_comment s))). split; [|split; [reflexivity|]].
    + apply in_or_app. left. rewrite map_map. apply in_map_iff. exists s. split; [|apply filter_In; auto].
      unfold s_block. cbn [b_name b_value b_comment]. unfold s_text. rewrite D1. reflexivity.
    + pose proof (parse_migrated same s (D s I) (V s I)) as PM. unfold s_text in PM. rewrite D1 in PM. exact PM.
  - intros Sv a Ha. apply in_app_or in Ha as [Ha|Ha].
    + rewrite map_map in Ha. apply in_map_iff in Ha as (x & <- & X). apply filter_In in X as [X1 X2]. cbn [as_name s_block b_name]. intro E.
      destruct (find_one (st_reg st) s (s_name s) (ok_reg _ _ T) I eq_refl) as (p & q & Q & FA & FB & _).
      rewrite Q in X1. apply in_app_or in X1. rewrite Forall_forall in FA, FB.
      assert (Nx : named (s_name s) x = true) by (apply iequal_alike; unfold alike; rewrite E; reflexivity).
      destruct X1 as [X1|[X1|X1]]; [rewrite (FA x X1) in Nx; discriminate|congruence|rewrite (FB x X1) in Nx; discriminate].
    + apply in_map_iff in Ha as (x & <- & X). cbn [as_name]. unfold kept in X. apply filter_In in X as [_ X]. intro E.
      apply andb_true_iff in X as [_ X]. apply negb_true_iff in X. rewrite existsb_none in X. specialize (X s I). cbv beta in X. rewrite E, eqb_bytes_refl in X. discriminate.
Qed.

(** C32: changing one setting in the file leaves the entries the session has for undeclared settings as they are. *)
Theorem sandbox_keeps_entries st d f n t f' st' ok : sandboxed_set same st d f n t = (f', st', ok) -> st_loaded st' = st_loaded st.
Proof.
  unfold sandboxed_set. cbv zeta. destruct (set_setting same _ n t None) as [st2 b]. destruct b.
  - destruct (save st2) as [[f1 st3]|]; intro E; injection E as _ <- _; reflexivity.
  - intro E; injection E as _ <- _; reflexivity.
Qed.
End P.

(** ** Examples *)
(** Names for options, the comparison being [iequal]. *)
Example options_ex : parse_val iequal (KEnum (lit "off,check,prompt,auto")) (lit "2") = Some (VInt 2) /\
  parse_val iequal (KEnum (lit "off,check,prompt,auto")) (lit "Prompt") = Some (VInt 2) /\
  parse_val iequal (KEnum (lit "off,check,prompt,auto")) (lit "4") = None /\
  parse_val iequal (KEnum (lit "off,check,prompt,auto")) (lit "-1") = None.
Proof. split; [|split; [|split]]; reflexivity. Qed.
Example booleans_ex : parse_val iequal KBool (lit " YES ") = Some (VBool true) /\ parse_val iequal KBool (lit "00x") = Some (VBool false) /\
  parse_val iequal KBool (lit "10") = Some (VBool true) /\ parse_val iequal KBool (lit "y") = None /\ parse_val iequal KBool (lit "-1") = None.
Proof. split; [|split; [|split; [|split]]]; reflexivity. Qed.
Example integers_ex : parse_val iequal KInt (lit "-12x") = Some (VInt (-12)) /\ parse_val iequal KInt (lit "-") = Some (VInt 0) /\
  parse_val iequal KInt (lit "99999999999") = Some (VInt 2147483647) /\ parse_val iequal KInt (lit " 1") = None.
Proof. split; [|split; [|split]]; reflexivity. Qed.
(** A custom default is used, and saved. *)
Example cleared_ex :
  let d := Some (lit "history.max_lines = 99") in
  let st := load iequal (mkst demo [] []) d None in
  let st1 := fst (set_setting iequal st (lit "history.max_lines") (lit "5") None) in
  let st2 := clear_setting iequal st1 (lit "HISTORY.max_lines") in
  map (fun s => (s_val s, s_save s)) (filter (named (lit "history.max_lines")) (st_reg st1)) = [(VInt 5, true)] /\
  map (fun s => (s_val s, s_save s)) (filter (named (lit "history.max_lines")) (st_reg st2)) = [(VInt 99, true)] /\
  map (fun s => (s_val s, s_save s)) (filter (named (lit "history.max_lines")) (st_reg (load iequal (mkst demo [] []) None None))) = [(VInt 2500, false)].
Proof. vm_compute. split; [|split]; reflexivity. Qed.

Print Assumptions options_exact.
Print Assumptions booleans_exact.
Print Assumptions integers_exact.
Print Assumptions cleared.
Print Assumptions defaults_loaded.
Print Assumptions setting_set.
Print Assumptions saved_exact.
Print Assumptions sandbox_keeps_entries.
