(** Proofs about PathModel: directories, names, extensions, parents. *)
From Verif Require Import Base CmpModel CmpSpec CmpProofs PathModel.

Definition nosep (l : list N) : Prop := Forall (fun c => ~ sep c) l.
Definition allsep (l : list N) : Prop := Forall sep l.

Lemma sep_b c : is_separator c = true <-> sep c.
Proof. apply is_sep. Qed.
Lemma nsep_b c : is_separator c = false <-> ~ sep c.
Proof. rewrite <- sep_b. destruct (is_separator c); intuition discriminate. Qed.

Lemma skip_sep_split l : exists s, l = s ++ skip_sep l /\ allsep s /\ sep_at (skip_sep l) 0 = false.
Proof.
  induction l as [|c l (s & E & Hs & Hn)]; [exists []; split; [reflexivity|]; split; [constructor|reflexivity]|].
  cbn [skip_sep]. destruct (is_separator c) eqn:Ec.
  - exists (c :: s). cbn [app]. rewrite <- E. split; [reflexivity|]. split; [constructor; [apply sep_b; auto|auto]|auto].
  - exists []. split; [reflexivity|]. split; [constructor|exact Ec].
Qed.
Lemma skip_nonsep_split l : exists s, l = s ++ skip_nonsep l /\ nosep s /\ (skip_nonsep l = [] \/ sep_at (skip_nonsep l) 0 = true).
Proof.
  induction l as [|c l (s & E & Hs & Hn)]; [exists []; split; [reflexivity|]; split; [constructor|left; reflexivity]|].
  cbn [skip_nonsep]. destruct (is_separator c) eqn:Ec.
  - exists []. split; [reflexivity|]. split; [constructor|right; exact Ec].
  - exists (c :: s). cbn [app]. rewrite <- E. split; [reflexivity|]. split; [constructor; [apply nsep_b; auto|auto]|auto].
Qed.
Lemma skip_sep_app s l : allsep s -> skip_sep (s ++ l) = skip_sep l.
Proof. induction 1 as [|c s Hc Hs IH]; [reflexivity|]. cbn [app skip_sep]. apply sep_b in Hc. rewrite Hc. auto. Qed.
Lemma skip_sep_id l : sep_at l 0 = false -> skip_sep l = l.
Proof. destruct l as [|c l]; [reflexivity|]. cbn [skip_sep]. change (sep_at (c :: l) 0) with (is_separator c). intros ->. reflexivity. Qed.
Lemma skip_nonsep_app s l : nosep s -> skip_nonsep (s ++ l) = skip_nonsep l.
Proof. induction 1 as [|c s Hc Hs IH]; [reflexivity|]. cbn [app skip_nonsep]. apply nsep_b in Hc. rewrite Hc. auto. Qed.

Definition suffix_of (a l : list N) : Prop := exists x, l = x ++ a.
Lemma suffix_refl l : suffix_of l l.
Proof. exists []. reflexivity. Qed.
Lemma suffix_trans a b c : suffix_of a b -> suffix_of b c -> suffix_of a c.
Proof. intros [x ->] [y ->]. exists (y ++ x). rewrite app_assoc. reflexivity. Qed.
Lemma suffix_skipn n l : suffix_of (skipn n l) l.
Proof. exists (firstn n l). symmetry. apply firstn_skipn. Qed.
Lemma suffix_tl l : suffix_of (tl l) l.
Proof. destruct l as [|c l]; [apply suffix_refl|exists [c]; reflexivity]. Qed.
Lemma suffix_skip_sep l : suffix_of (skip_sep l) l.
Proof. destruct (skip_sep_split l) as (s & E & _). exists s. exact E. Qed.
Lemma suffix_skip_nonsep l : suffix_of (skip_nonsep l) l.
Proof. destruct (skip_nonsep_split l) as (s & E & _). exists s. exact E. Qed.
Lemma suffix_eq a l : suffix_of a l -> skipn (length l - length a) l = a.
Proof. intros [x ->]. rewrite app_length, Nat.add_sub, skipn_app, skipn_all, Nat.sub_diag. reflexivity. Qed.
Lemma suffix_le a l : suffix_of a l -> length a <= length l.
Proof. intros [x ->]. rewrite app_length. lia. Qed.

Lemma some_inj {A} (x y : A) : Some x = Some y -> x = y.
Proof. congruence. Qed.

Lemma is_unc_suffix p r : is_unc p = Some r -> suffix_of r p.
Proof.
  unfold is_unc. cbv zeta. intro H.
  repeat match type of H with (if ?b then _ else _) = Some _ => destruct b; try discriminate end;
    apply some_inj in H; rewrite <- H; clear H.
  - eapply suffix_trans; [apply suffix_skip_nonsep|]. eapply suffix_trans; [apply suffix_skip_sep|].
    eapply suffix_trans; [apply suffix_skip_nonsep|]. eapply suffix_trans; [apply suffix_skip_sep|].
    eapply suffix_trans; [apply suffix_skipn|]. eapply suffix_trans; [apply suffix_skip_sep|].
    eapply suffix_trans; [apply suffix_tl|]. apply suffix_skip_sep.
  - eapply suffix_trans; [apply suffix_skip_nonsep|]. eapply suffix_trans; [apply suffix_skip_sep|].
    eapply suffix_trans; [apply suffix_skip_nonsep|]. apply suffix_skip_sep.
Qed.
Lemma past_ssqs_suffix p : suffix_of (past_ssqs p) p.
Proof.
  unfold past_ssqs. repeat match goal with |- context [if ?b then _ else _] => destruct b; try apply suffix_refl end.
  eapply suffix_trans; [apply suffix_skip_sep|apply suffix_skipn].
Qed.
Lemma past_drive_suffix walpha p : suffix_of (past_drive walpha p) p.
Proof.
  unfold past_drive. destruct (is_unc p) as [r|] eqn:E; [apply is_unc_suffix; exact E|]. cbv zeta.
  destruct (_ && _); [|apply past_ssqs_suffix]. eapply suffix_trans; [apply suffix_skipn|apply past_ssqs_suffix].
Qed.
Lemma drive_len_le walpha p : drive_len walpha p <= length p.
Proof. unfold drive_len. lia. Qed.
Lemma drive_split walpha p : skipn (drive_len walpha p) p = past_drive walpha p.
Proof. apply suffix_eq, past_drive_suffix. Qed.

(** ** Separators by index *)
Lemma sep_at_skipn n l i : sep_at (skipn n l) i = sep_at l (n + i).
Proof.
  unfold sep_at, at_. f_equal. revert l. induction n as [|n IH]; intros [|x l]; cbn [skipn Nat.add nth]; auto.
  - destruct i; reflexivity.
Qed.
Lemma sep_at_le l i : sep_at l i = true -> i < length l.
Proof.
  unfold sep_at, at_. intro H. destruct (Nat.lt_ge_cases i (length l)) as [|Hge]; [auto|]. rewrite nth_overflow in H by auto. discriminate.
Qed.
Lemma nosep_at l : nosep l <-> forall i, sep_at l i = false.
Proof.
  split.
  - intros H i. destruct (sep_at l i) eqn:E; [|reflexivity]. pose proof (sep_at_le _ _ E) as Hi. exfalso.
    unfold nosep in H. rewrite Forall_forall in H. apply (H (nth i l 0%N)); [apply nth_In; auto|apply sep_b; exact E].
  - intro H. apply Forall_forall. intros c Hc. apply In_nth with (d := 0%N) in Hc as (i & Hi & <-). apply nsep_b. apply H.
Qed.
Lemma allsep_at l : allsep l <-> forall i, i < length l -> sep_at l i = true.
Proof.
  unfold allsep. rewrite Forall_forall. split.
  - intros H i Hi. apply sep_b. apply H. apply nth_In; auto.
  - intros H c Hc. apply In_nth with (d := 0%N) in Hc as (i & Hi & <-). apply sep_b. apply (H i Hi).
Qed.
Lemma sep_at_firstn n l i : i < n -> sep_at (firstn n l) i = sep_at l i.
Proof.
  unfold sep_at, at_. intro H. f_equal. revert l i H. induction n as [|n IH]; intros [|x l] i H; cbn [firstn]; auto; [lia|].
  destruct i; [reflexivity|]. cbn [nth]. apply IH. lia.
Qed.

(** A slice of a path. *)
Definition slice (a b : nat) (l : list N) : list N := firstn (b - a) (skipn a l).
Lemma skipn_twice (l : list N) : forall a b, skipn b (skipn a l) = skipn (a + b) l.
Proof. induction l as [|x l IH]; intros [|a] b; cbn [skipn Nat.add]; auto. destruct b; reflexivity. Qed.
Lemma slice3 l a b : a <= b -> b <= length l -> l = firstn a l ++ slice a b l ++ skipn b l.
Proof.
  intros Ha Hb. unfold slice. rewrite <- (firstn_skipn a l) at 1. f_equal.
  rewrite <- (firstn_skipn (b - a) (skipn a l)) at 1. f_equal. rewrite skipn_twice. f_equal. lia.
Qed.
Lemma slice_sep l a b : (forall i, a <= i < b -> sep_at l i = true) -> allsep (slice a b l).
Proof.
  intro H. apply allsep_at. intros i Hi. unfold slice in *. rewrite firstn_length in Hi.
  rewrite sep_at_firstn, sep_at_skipn by lia. apply H. lia.
Qed.
Lemma slice_nosep l a b : (forall i, a <= i < b -> sep_at l i = false) -> nosep (slice a b l).
Proof.
  intro H. apply nosep_at. intros i. unfold slice. destruct (Nat.lt_ge_cases i (b - a)).
  - rewrite sep_at_firstn, sep_at_skipn by auto. apply H. lia.
  - unfold sep_at, at_. rewrite nth_overflow; [reflexivity|]. rewrite firstn_length. lia.
Qed.
Lemma slice_len l a b : b <= length l -> length (slice a b l) = b - a.
Proof. intro H. unfold slice. rewrite firstn_length, skipn_length. lia. Qed.

(** ** Finding separators *)
Lemma last_sep_ok l : forall i found,
  match last_sep l i found with
  | None => found = None /\ nosep l
  | Some j => (found = Some j /\ nosep l) \/ (i <= j < i + length l /\ sep_at l (j - i) = true /\ (forall k, j - i < k -> sep_at l k = false))
  end.
Proof.
  induction l as [|c l IH]; intros i found; cbn [last_sep].
  - destruct found; [left; split; [reflexivity|constructor]|split; [reflexivity|constructor]].
  - specialize (IH (S i) (if is_separator c then Some i else found)).
    destruct (last_sep l (S i) (if is_separator c then Some i else found)) as [j|].
    + destruct IH as [[Hf Hn]|(Hj & Hs & Ha)].
      * destruct (is_separator c) eqn:Ec.
        -- inversion Hf; subst j. right. cbn [length]. split; [lia|]. rewrite Nat.sub_diag. split; [exact Ec|].
           intros [|k] Hk; [lia|]. change (sep_at (c :: l) (S k)) with (sep_at l k). apply nosep_at; auto.
        -- left. split; [exact Hf|]. constructor; [apply nsep_b; auto|auto].
      * right. cbn [length]. split; [lia|]. replace (j - i) with (S (j - S i)) by lia. split; [exact Hs|].
        intros [|k] Hk; [lia|]. change (sep_at (c :: l) (S k)) with (sep_at l k). apply Ha. lia.
    + destruct IH as [Hf Hn]. destruct (is_separator c) eqn:Ec; [discriminate|]. split; [exact Hf|]. constructor; [apply nsep_b; auto|auto].
Qed.

(** The last separator at or after [p]. *)
Lemma last_sep_at path p : p <= length path ->
  match last_sep (skipn p path) p None with
  | None => forall i, p <= i -> sep_at path i = false
  | Some j => p <= j < length path /\ sep_at path j = true /\ (forall k, j < k -> sep_at path k = false)
  end.
Proof.
  intro Hp. pose proof (last_sep_ok (skipn p path) p None) as H. destruct (last_sep (skipn p path) p None) as [j|].
  - destruct H as [[H _]|(Hj & Hs & Ha)]; [discriminate|]. rewrite skipn_length in Hj. split; [lia|].
    rewrite sep_at_skipn in Hs. replace (p + (j - p)) with j in Hs by lia. split; [exact Hs|].
    intros k Hk. specialize (Ha (k - p) ltac:(lia)). rewrite sep_at_skipn in Ha. replace (p + (k - p)) with k in Ha by lia. exact Ha.
  - destruct H as [_ H]. intros i Hi. rewrite nosep_at in H. specialize (H (i - p)). rewrite sep_at_skipn in H.
    replace (p + (i - p)) with i in H by lia. exact H.
Qed.

Lemma first_slash_ok path p : forall i, p <= i -> sep_at path i = true ->
  p <= first_slash path p i <= i /\ (forall k, first_slash path p i <= k <= i -> sep_at path k = true).
Proof.
  assert (H : forall i, p <= S i -> (p <= first_slash path p i <= S i) /\ (forall k, first_slash path p i <= k <= i -> sep_at path k = true)).
  { induction i as [|i IH]; intro Hi; cbn [first_slash].
    - destruct (Nat.ltb_spec 0 p); [split; [lia|intros k Hk; lia]|]. destruct (sep_at path 0) eqn:E; cbn [negb].
      + split; [lia|]. intros k Hk. replace k with 0 by lia. exact E.
      + split; [lia|intros k Hk; lia].
    - destruct (Nat.ltb_spec (S i) p); [split; [lia|intros k Hk; lia]|]. destruct (sep_at path (S i)) eqn:E; cbn [negb].
      + destruct (IH ltac:(lia)) as [IH1 IH2]. split; [lia|]. intros k Hk. destruct (Nat.eq_dec k (S i)) as [->|]; [exact E|]. apply IH2. lia.
      + split; [lia|intros k Hk; lia]. }
  intros i Hi Hs. destruct i as [|i].
  - cbn [first_slash]. destruct (Nat.ltb_spec 0 p); [lia|]. rewrite Hs. cbn [negb]. split; [lia|]. intros k Hk. replace k with 0 by lia. exact Hs.
  - cbn [first_slash]. destruct (Nat.ltb_spec (S i) p); [lia|]. rewrite Hs. cbn [negb]. destruct (H i Hi) as [H1 H2].
    split; [|intros k Hk; destruct (Nat.eq_dec k (S i)) as [->|]; [exact Hs|apply H2; lia]]. lia.
Qed.

(** ** Directory and name *)
Definition name_start walpha path : nat := length path - length (get_name walpha path).

Lemma get_name_ok walpha path :
  drive_len walpha path <= name_start walpha path <= length path /\
  get_name walpha path = skipn (name_start walpha path) path /\
  (forall i, name_start walpha path <= i -> sep_at path i = false) /\
  (name_start walpha path = drive_len walpha path \/
   drive_len walpha path < name_start walpha path /\ sep_at path (name_start walpha path - 1) = true).
Proof.
  pose proof (drive_len_le walpha path) as Hd. unfold name_start, get_name. cbv zeta.
  pose proof (last_sep_at path (drive_len walpha path) Hd) as H.
  destruct (last_sep (skipn (drive_len walpha path) path) (drive_len walpha path) None) as [j|].
  - destruct H as (Hj & Hs & Ha). rewrite skipn_length. replace (length path - (length path - S j)) with (S j) by lia.
    split; [lia|]. split; [reflexivity|]. split; [intros i Hi; apply Ha; lia|]. right. split; [lia|].
    replace (S j - 1) with j by lia. exact Hs.
  - rewrite skipn_length. replace (length path - (length path - drive_len walpha path)) with (drive_len walpha path) by lia.
    split; [lia|]. split; [reflexivity|]. split; [exact H|]. left. reflexivity.
Qed.

Lemma directory_end_ok walpha path :
  drive_len walpha path <= get_directory_end walpha path <= name_start walpha path /\
  (forall i, get_directory_end walpha path <= i < name_start walpha path -> sep_at path i = true).
Proof.
  destruct (get_name_ok walpha path) as (Hn & _ & Hna & Hno).
  pose proof (drive_len_le walpha path) as Hd. unfold get_directory_end. cbv zeta.
  set (d := drive_len walpha path) in *. set (n := name_start walpha path) in *.
  assert (Hlast : forall p, d <= p <= length path ->
     match last_sep (skipn p path) p None with None => n <= p | Some j => n = S j end).
  { intros p Hp. pose proof (last_sep_at path p (proj2 Hp)) as H. destruct (last_sep (skipn p path) p None) as [j|].
    - destruct H as (Hj & Hs & Ha). destruct Hno as [E|[Hlt Hs']].
      + assert (sep_at path j = false) by (apply Hna; lia). congruence.
      + destruct (Nat.lt_trichotomy n (S j)) as [|[|]]; [|auto|].
        * assert (sep_at path j = false) by (apply Hna; lia). congruence.
        * assert (sep_at path (n - 1) = false) by (apply Ha; lia). congruence.
    - destruct Hno as [E|[Hlt Hs']]; [lia|]. destruct (Nat.le_gt_cases n p); [auto|].
      assert (sep_at path (n - 1) = false) by (apply H; lia). congruence. }
  set (p := if (Nat.eqb d 0 || (at_ path (d - 1) =? 58)%N) && sep_at path d then S d else d).
  assert (Hp : d <= p <= length path /\ p <= n \/ False).
  { left. subst p. destruct (sep_at path d) eqn:Es; [|rewrite andb_false_r; lia].
    pose proof (sep_at_le _ _ Es). assert (d < n).
    { destruct (Nat.lt_ge_cases d n); [auto|]. rewrite Hna in Es by auto. discriminate. }
    destruct (_ && true); lia. }
  destruct Hp as [[Hp Hpn]|[]]. specialize (Hlast p Hp). pose proof (last_sep_at path p (proj2 Hp)) as H.
  destruct (last_sep (skipn p path) p None) as [j|].
  - destruct H as (Hj & Hs & Ha). subst n. rewrite Hlast in *.
    destruct (first_slash_ok path p j (proj1 Hj) Hs) as [Hf1 Hf2].
    destruct (Nat.eqb_spec (first_slash path p j) p).
    + split; [lia|]. intros i Hi. replace i with j by lia. exact Hs.
    + split; [lia|]. intros i Hi. apply Hf2. lia.
  - split; [lia|]. intros i Hi. lia.
Qed.

(** ** Extensions *)
Definition ext_stop (c : N) : bool := ((c =? 32) || (c =? 47) || (c =? 92) || (c =? 58))%N.
Definition plain_ext (l : list N) : Prop := Forall (fun c => c <> 46%N /\ ext_stop c = false) l.
Lemma ext_scan_ok l : forall found,
  match ext_scan l found with
  | None => (found = None /\ plain_ext l) \/ exists a c b, l = a ++ c :: b /\ ext_stop c = true /\ plain_ext b
  | Some e => (found = Some e /\ plain_ext l) \/ exists a b, l = a ++ e /\ e = 46%N :: b /\ plain_ext b
  end.
Proof.
  induction l as [|c l IH]; intro found; cbn [ext_scan].
  - destruct found; left; (split; [reflexivity|constructor]).
  - fold (ext_stop c).
    specialize (IH (if (c =? 46)%N then Some (c :: l) else if ext_stop c then None else found)).
    destruct (ext_scan l _) as [e|].
    + destruct IH as [[Hf Hp]|(a & b & -> & -> & Hp)].
      * destruct (N.eqb_spec c 46) as [->|Hc].
        -- inversion Hf; subst e. right. exists [], l. auto.
        -- destruct (ext_stop c) eqn:Es; [discriminate|]. left. split; [exact Hf|]. constructor; auto.
      * right. exists (c :: a), b. auto.
    + destruct IH as [[Hf Hp]|(a & x & b & -> & Hx & Hp)].
      * destruct (N.eqb_spec c 46) as [->|Hc]; [discriminate|]. destruct (ext_stop c) eqn:Es.
        -- right. exists [], c, l. auto.
        -- left. split; [exact Hf|]. constructor; auto.
      * right. exists (c :: a), x, b. auto.
Qed.

(** ** Going to the parent *)
Lemma strip_down_ok path start : forall n,
  strip_down path start n <= n /\ (start <= n -> start <= strip_down path start n) /\
  (forall i, strip_down path start n <= i < n -> sep_at path i = true) /\
  (start < strip_down path start n -> sep_at path (strip_down path start n - 1) = false) /\
  (n <= start -> strip_down path start n = n).
Proof.
  induction n as [|n (I1 & I2 & I3 & I4 & I5)]; cbn [strip_down].
  - split; [lia|]. split; [lia|]. split; [intros; lia|]. split; [lia|auto].
  - destruct (Nat.ltb_spec start (S n)); cbn [andb].
    + destruct (sep_at path n) eqn:E.
      * split; [lia|]. split; [lia|]. split; [|split; [exact I4|lia]]. intros i Hi.
        destruct (Nat.eq_dec i n) as [->|]; [exact E|apply I3; lia].
      * split; [lia|]. split; [lia|]. split; [intros; lia|]. split; [|lia]. intros _. replace (S n - 1) with n by lia. exact E.
    + split; [lia|]. split; [lia|]. split; [intros; lia|]. split; [lia|auto].
Qed.
Lemma nonsep_down_ok path : forall n,
  nonsep_down path n <= n /\ (forall i, nonsep_down path n <= i < n -> sep_at path i = false) /\
  (0 < nonsep_down path n -> sep_at path (nonsep_down path n - 1) = true).
Proof.
  induction n as [|n (I1 & I2 & I3)]; cbn [nonsep_down].
  - split; [lia|]. split; [intros; lia|lia].
  - destruct (sep_at path n) eqn:E; cbn [negb].
    + split; [lia|]. split; [intros; lia|]. intros _. replace (S n - 1) with n by lia. exact E.
    + split; [lia|]. split; [|auto]. intros i Hi. destruct (Nat.eq_dec i n) as [->|]; [exact E|apply I2; lia].
Qed.

Definition root_end walpha path : nat :=
  let start := drive_len walpha path in
  if Nat.ltb 0 start && (at_ path (start - 1) =? 58)%N
  then length path - length (skip_sep (skipn start path)) else start.

Lemma root_end_ok walpha path : drive_len walpha path <= root_end walpha path <= length path /\
  (forall i, drive_len walpha path <= i < root_end walpha path -> sep_at path i = true).
Proof.
  pose proof (drive_len_le walpha path) as Hd. unfold root_end. cbv zeta.
  set (d := drive_len walpha path) in *. destruct (_ && _); [|split; [lia|intros; lia]].
  destruct (skip_sep_split (skipn d path)) as (s & E & Hs & _). pose proof (f_equal (@length N) E) as El.
  rewrite app_length, skipn_length in El. split; [lia|]. intros i Hi.
  assert (Hsi : sep_at s (i - d) = true) by (apply allsep_at; [auto|lia]).
  replace i with (d + (i - d)) by lia. rewrite <- sep_at_skipn, E. unfold sep_at, at_ in *. rewrite app_nth1 by lia. exact Hsi.
Qed.

(** The drive does not end between two separators. *)
Lemma boundary_app (x a : list N) : sep_at (x ++ a) (length x) = sep_at a 0.
Proof. unfold sep_at, at_. rewrite app_nth2 by lia. rewrite Nat.sub_diag. reflexivity. Qed.

Definition no_split (path r : list N) : Prop :=
  forall n, length path = n + length r -> 0 < n -> sep_at path (n - 1) = true -> sep_at path n = true -> False.

Lemma no_split_start path r : suffix_of r path -> sep_at r 0 = false -> no_split path r.
Proof.
  intros [x ->] Hr n Hn _ _ Hs. rewrite app_length in Hn. replace n with (length x) in Hs by lia. rewrite boundary_app in Hs. congruence.
Qed.
Lemma no_split_share path q : suffix_of q path -> no_split path (skip_nonsep (skip_sep q)).
Proof.
  intros [x Ex]. destruct (skip_sep_split q) as (s & Es & Hs & Hn). destruct (skip_nonsep_split (skip_sep q)) as (t & Et & Ht & Hr).
  destruct t as [|c t].
  - cbn [app] in Et. apply no_split_start.
    + rewrite <- Et. eapply suffix_trans; [apply suffix_skip_sep|]. exists x. exact Ex.
    + rewrite <- Et. exact Hn.
  - intros n Hl Hpos H1 _. assert (E : path = (x ++ s ++ c :: t) ++ skip_nonsep (skip_sep q)).
    { rewrite Ex, Es at 1. rewrite <- !app_assoc. do 2 f_equal. exact Et. }
    set (r := skip_nonsep (skip_sep q)) in *. rewrite E in Hl, H1. rewrite app_length in Hl.
    assert (En : n = length (x ++ s ++ c :: t)) by lia.
    destruct (exists_last (l := c :: t) ltac:(discriminate)) as (t' & y & Ety). rewrite Ety in *.
    rewrite !app_assoc in H1, En. rewrite <- app_assoc in H1. cbn [app] in H1. rewrite app_length in En. cbn [length] in En.
    replace (n - 1) with (length ((x ++ s) ++ t')) in H1 by lia. rewrite boundary_app in H1.
    apply Forall_app in Ht as [_ Ht]. apply Forall_inv in Ht. apply Ht. apply sep_b. exact H1.
Qed.

Lemma drive_boundary walpha path : no_split path (past_drive walpha path).
Proof.
  unfold past_drive. destruct (is_unc path) as [r|] eqn:E.
  - unfold is_unc in E. cbv zeta in E.
    repeat match type of E with (if ?b then _ else _) = Some _ => destruct b; try discriminate end;
      apply some_inj in E; rewrite <- E; clear E; apply no_split_share.
    + eapply suffix_trans; [apply suffix_skip_nonsep|]. eapply suffix_trans; [apply suffix_skip_sep|].
      eapply suffix_trans; [apply suffix_skipn|]. eapply suffix_trans; [apply suffix_skip_sep|].
      eapply suffix_trans; [apply suffix_tl|]. apply suffix_skip_sep.
    + eapply suffix_trans; [apply suffix_skip_nonsep|apply suffix_skip_sep].
  - cbv zeta. set (p := past_ssqs path). destruct (walpha (at_ p 0) && (at_ p 1 =? 58)%N) eqn:Ed.
    + apply andb_true_iff in Ed as [_ Ed]. apply N.eqb_eq in Ed. intros n Hl Hpos H1 _.
      assert (Hp2 : 2 <= length p) by (destruct p as [|? [|? ?]]; [discriminate|discriminate|cbn [length]; lia]).
      destruct (past_ssqs_suffix path) as [x Ex]. fold p in Ex. rewrite Ex in Hl, H1. rewrite app_length, skipn_length in Hl.
      replace (n - 1) with (length x + 1) in H1 by lia. unfold sep_at, at_ in H1. rewrite app_nth2 in H1 by lia.
      replace (length x + 1 - length x) with 1 in H1 by lia. unfold at_ in Ed. rewrite Ed in H1. discriminate.
    + subst p. unfold past_ssqs. 
      repeat match goal with |- context [if ?b then _ else _] => destruct b end; try (intros n Hl Hpos; lia).
      apply no_split_start; [eapply suffix_trans; [apply suffix_skip_sep|apply suffix_skipn]|].
      destruct (skip_sep_split (skipn 4 path)) as (_ & _ & _ & H). exact H.
Qed.

Lemma root_boundary walpha path : 0 < root_end walpha path -> sep_at path (root_end walpha path - 1) = true ->
  sep_at path (root_end walpha path) = false.
Proof.
  intros Hpos Hs. unfold root_end in *. cbv zeta in *. pose proof (drive_len_le walpha path) as Hd.
  destruct (_ && _) in *.
  - destruct (skip_sep_split (skipn (drive_len walpha path) path)) as (s & E & _ & Hn).
    pose proof (suffix_le _ _ (suffix_skip_sep (skipn (drive_len walpha path) path))) as Hl. rewrite skipn_length in Hl.
    assert (E2 : suffix_of (skip_sep (skipn (drive_len walpha path) path)) path).
    { eapply suffix_trans; [apply suffix_skip_sep|apply suffix_skipn]. }
    destruct E2 as [x Ex]. set (r := skip_sep _) in *. rewrite Ex at 1. replace (length path - length r) with (length x).
    + rewrite boundary_app. exact Hn.
    + rewrite Ex at 1. rewrite app_length. lia.
  - destruct (sep_at path (drive_len walpha path)) eqn:E; [|reflexivity]. exfalso.
    apply (drive_boundary walpha path (drive_len walpha path)); auto.
    pose proof (drive_split walpha path) as Ed. apply (f_equal (@length N)) in Ed. rewrite skipn_length in Ed. lia.
Qed.

(** What to_parent computes. *)
Lemma to_parent_ok walpha path : exists e c ce,
  to_parent walpha path = (firstn e path, slice c ce path, negb (Nat.eqb e (length path))) /\
  root_end walpha path <= e <= c /\ c <= ce /\ ce <= length path /\
  (forall i, e <= i < c -> sep_at path i = true) /\ (forall i, c <= i < ce -> sep_at path i = false) /\
  (forall i, ce <= i < length path -> sep_at path i = true) /\
  (root_end walpha path < e -> sep_at path (e - 1) = false) /\
  (c = ce -> c = root_end walpha path) /\ (c = root_end walpha path \/ root_end walpha path < c /\ sep_at path (c - 1) = true).
Proof.
  unfold to_parent. cbv zeta. fold (root_end walpha path). set (r := root_end walpha path).
  destruct (root_end_ok walpha path) as [Hr1 Hr2]. fold r in Hr1, Hr2. pose proof (root_boundary walpha path) as Hrb. fold r in Hrb.
  destruct (strip_down_ok path 0 (length path)) as (S1 & _ & S3 & S4 & _). set (ce := strip_down path 0 (length path)) in *.
  destruct (nonsep_down_ok path ce) as (N1 & N2 & N3). set (e0 := nonsep_down path ce) in *.
  set (c := if Nat.ltb e0 r then r else e0).
  assert (Hc : r <= c /\ e0 <= c /\ (c = r \/ c = e0)) by (subst c; destruct (Nat.ltb_spec e0 r); lia).
  destruct (strip_down_ok path r c) as (T1 & T2 & T3 & T4 & T5). set (e := strip_down path r c) in *.
  assert (Hcl : c <= length path) by lia.
  assert (Hfl : length (firstn e path) = e) by (rewrite firstn_length; lia).
  rewrite Hfl.
  destruct (Nat.ltb_spec ce c) as [Hlt|Hge].
  - (* the separators at the end belong to the root *)
    assert (Ecr : c = r) by lia.
    assert (Hrl : r = length path).
    { destruct (Nat.lt_ge_cases r (length path)); [|lia]. assert (H1 : sep_at path (r - 1) = true) by (apply S3; lia).
      specialize (Hrb ltac:(lia) H1). rewrite (S3 r) in Hrb by lia. discriminate. }
    assert (Her : e = r) by (specialize (T2 ltac:(lia)); lia).
    exists e, c, c. split.
    { f_equal; f_equal. rewrite skipn_all2 by lia. unfold slice. rewrite Nat.sub_diag. reflexivity. }
    split; [lia|]. split; [lia|]. split; [lia|]. split; [intros; lia|]. split; [intros; lia|]. split; [intros; lia|].
    split; [lia|]. split; [lia|]. left; lia.
  - exists e, c, ce. split; [reflexivity|]. split; [specialize (T2 ltac:(lia)); lia|]. split; [lia|]. split; [lia|].
    split; [exact T3|]. split; [intros i Hi; apply N2; lia|]. split; [exact S3|]. split; [exact T4|].
    split.
    + intro E. destruct Hc as (C1 & C2 & [C3|C3]); [exact C3|]. destruct (Nat.eq_dec ce 0) as [|Hz]; [lia|].
      specialize (S4 ltac:(lia)). assert (e0 = ce) by lia. specialize (N3 ltac:(lia)). rewrite H in N3. congruence.
    + destruct (Nat.eq_dec c r); [left; auto|right]. assert (c = e0) by lia. split; [lia|]. rewrite H. apply N3. lia.
Qed.
