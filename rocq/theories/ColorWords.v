(** C33: exactly which words a colour may be given in, and what they say. *)
From Verif Require Import Base ColorModel ColorSpec ColorProofs ColorParse ColorRound ColorProperties.

(** ** The words, stated without the model's functions *)
Inductive kind := KOn | KDefault | KBold (b : bool) | KBright | KUnder (b : bool) | KItalic | KReverse | KRgb (r g b : N) | KName (i : nat).
(** Only the first three letters matter, in any case. *)
Definition three (t w : bytes) : Prop := map lower_case (firstn 3 t) = firstn 3 w.
Fixpoint index_in (c : byte) (l : bytes) (n : N) : option N := match l with [] => None | x :: r => if Ascii.eqb x c then Some n else index_in c r (n + 1)%N end.
Definition hexval (c : byte) : option N := index_in (lower_case c) (lit "0123456789abcdef") 0.
Inductive means : bytes -> kind -> Prop :=
| m_on t : map lower_case t = lit "on" -> means t KOn
| m_default t : three t (lit "default") \/ three t (lit "normal") -> means t KDefault
| m_bold t : three t (lit "bold") -> means t (KBold true)
| m_nobold t : three t (lit "nobold") \/ three t (lit "dim") -> means t (KBold false)
| m_bright t : three t (lit "bright") -> means t KBright
| m_under t : three t (lit "underline") -> means t (KUnder true)
| m_nounder t : three t (lit "nounderline") -> means t (KUnder false)
| m_italic t : three t (lit "italic") -> means t KItalic
| m_reverse t : three t (lit "reverse") -> means t KReverse
| m_rgb3 a b c x y z : hexval a = Some x -> hexval b = Some y -> hexval c = Some z -> means ["#"%char; a; b; c] (KRgb (16 * x + x) (16 * y + y) (16 * z + z))
| m_rgb6 a a' b b' c c' x x' y y' z z' : hexval a = Some x -> hexval a' = Some x' -> hexval b = Some y -> hexval b' = Some y' -> hexval c = Some z -> hexval c' = Some z' ->
    means ["#"%char; a; a'; b; b'; c; c'] (KRgb (16 * x + x') (16 * y + y') (16 * z + z'))
| m_name t i : i < 8 -> three t (colour_word i) -> means t (KName i).

Definition is_on k := match k with KOn => true | _ => false end.
Definition is_def k := match k with KDefault => true | _ => false end.
Definition is_bold k := match k with KBold _ => true | _ => false end.
Definition is_bri k := match k with KBright => true | _ => false end.
Definition is_und k := match k with KUnder _ => true | _ => false end.
Definition is_ital k := match k with KItalic => true | _ => false end.
Definition is_rev k := match k with KReverse => true | _ => false end.
Definition is_rgb k := match k with KRgb _ _ _ => true | _ => false end.
Definition is_col k := match k with KRgb _ _ _ | KName _ => true | _ => false end.
Definition any := @existsb kind.
(** The words before the first "on", and those behind the last one *)
Fixpoint front (ks : list kind) : list kind := match ks with [] => [] | k :: r => if is_on k then [] else k :: front r end.
Definition since (ks : list kind) : list kind := fold_left (fun acc k => if is_on k then [] else acc ++ [k]) ks [].

(** Whether a word may follow the words before it *)
Definition may_follow (before : list kind) (k : kind) : bool :=
  match k with
  | KOn => negb (any is_on before)
  | KDefault => negb (any is_col (since before)) && negb (any is_def (since before))
  | KBold _ => negb (any is_on before) && negb (any is_bold before)
  | KBright => negb (any is_rgb (since before)) && negb (any is_bri (since before))
  | KUnder _ => negb (any is_on before) && negb (any is_und before)
  | KItalic => negb (any is_on before) && negb (any is_ital before)
  | KReverse => negb (any is_rev before)
  | KRgb _ _ _ => negb (any is_col (since before)) && negb (any is_bri (since before))
  | KName _ => negb (any is_col (since before))
  end.
Definition fits (ks : list kind) : Prop := forall a k b, ks = a ++ k :: b -> may_follow a k = true.

(** What they say *)
Definition side (s : list kind) : option col :=
  match find is_col s with
  | Some (KRgb r g b) => Some (Rgb r g b)
  | Some (KName i) => Some (Named (any is_bri s) i)
  | _ => None
  end.
Definition says (ks : list kind) : attrs :=
  mka (any is_rev ks) (match find is_bold ks with Some (KBold b) => Some b | _ => None end) (any is_ital ks)
      (match find is_und ks with Some (KUnder b) => b | _ => false end)
      (match side (front ks) with Some c => Some c | None => if any is_on ks && any is_bri (front ks) then Some (Named false 7) else None end)
      (if any is_on ks then side (since ks) else None).

(** ** The model's steps *)
Definition kstep (p : pstate) (k : kind) : option pstate :=
  match k with
  | KOn => if p_on p then None
    else Some (mkp (if negb (p_hex p) && (0 <? p_bright p)%Z then (p_fg p + 8)%Z else p_fg p) (p_bg p) (p_fg_hex p) (p_bg_hex p)
                   (p_bold p) (-1) (p_underline p) (p_italic p) (p_reverse p) true false)
  | KDefault => if (0 <=? p_color p)%Z then None
    else if p_saw_default p then None
    else let q := set_color p (-1) false in
         Some (mkp (p_fg q) (p_bg q) (p_fg_hex q) (p_bg_hex q) (p_bold q) (p_bright q) (p_underline q) (p_italic q) (p_reverse q) (p_on q) true)
  | KBold b => if p_on p then None
    else if (0 <=? p_bold p)%Z then None
    else Some (mkp (p_fg p) (p_bg p) (p_fg_hex p) (p_bg_hex p) (if b then 1 else 0) (p_bright p) (p_underline p)
                   (p_italic p) (p_reverse p) (p_on p) (p_saw_default p))
  | KBright => if p_hex p then None
    else if (0 <=? p_bright p)%Z then None
    else Some (mkp (p_fg p) (p_bg p) (p_fg_hex p) (p_bg_hex p) (p_bold p) 1 (p_underline p)
                   (p_italic p) (p_reverse p) (p_on p) (p_saw_default p))
  | KUnder b => if p_on p then None
    else if (0 <=? p_underline p)%Z then None
    else Some (mkp (p_fg p) (p_bg p) (p_fg_hex p) (p_bg_hex p) (p_bold p) (p_bright p) (if b then 1 else 0)
                   (p_italic p) (p_reverse p) (p_on p) (p_saw_default p))
  | KItalic => if p_on p then None
    else if p_italic p then None
    else Some (mkp (p_fg p) (p_bg p) (p_fg_hex p) (p_bg_hex p) (p_bold p) (p_bright p) (p_underline p)
                   true (p_reverse p) (p_on p) (p_saw_default p))
  | KReverse => if p_reverse p then None
    else Some (mkp (p_fg p) (p_bg p) (p_fg_hex p) (p_bg_hex p) (p_bold p) (p_bright p) (p_underline p)
                   (p_italic p) true (p_on p) (p_saw_default p))
  | KRgb r g b => if (0 <=? p_color p)%Z then None
      else if (0 <=? p_bright p)%Z then None
      else Some (set_color p (Z.of_N r * 65536 + Z.of_N g * 256 + Z.of_N b)%Z true)
  | KName i => if (0 <=? p_color p)%Z then None else Some (set_color p (Z.of_nat i) (p_hex p))
  end.

Lemma hexval_ok c : match hexval c with Some n => (n < 16)%N /\ parsehexdigit c = Z.of_N n | None => parsehexdigit c = (-1)%Z end.
Proof. destruct c as [[] [] [] [] [] [] [] []]; vm_compute; auto. Qed.
Lemma three_iff t w : imatch3 t w = true <-> three t w.
Proof. unfold imatch3, three. change lower with lower_case. rewrite <- firstn_map. apply eqb_bytes_eq. Qed.
Lemma three_im t w : three t w -> forall v, imatch3 t v = eqb_bytes (firstn 3 w) (firstn 3 v).
Proof. unfold imatch3, three. change lower with lower_case. intros H v. rewrite firstn_map, H. reflexivity. Qed.
Lemma three_on t w : three t w -> 3 <= length w -> iequal t (lit "on") = false.
Proof.
  unfold three, iequal. intros H L. change lower with lower_case. apply eqb_bytes_neq. intros E. apply (f_equal (@length _)) in H, E.
  rewrite map_length, firstn_length, firstn_length in H. rewrite map_length in E. cbn [length lit list_ascii_of_string map] in E. lia.
Qed.

(** A word of letters is no number *)
Lemma hex_letters t w : three t w -> (exists c r, w = c :: r /\ c <> "#"%char) -> parsehex t = (-1)%Z.
Proof.
  intros H (c & r & -> & N). unfold three in H. destruct t as [|x t]; [discriminate|]. cbn [firstn map] in H. injection H as H _.
  unfold parsehex. destruct (Ascii.eqb_spec x "#"); [|reflexivity]. subst x. exfalso. apply N. symmetry. exact H.
Qed.

Lemma step_means p t k : means t k -> p_step p t = kstep p k.
Proof.
  intros M. unfold p_step.
  assert (W : forall w, three t w -> 3 <= length w -> iequal t (lit "on") = false /\ forall v, imatch3 t v = eqb_bytes (firstn 3 w) (firstn 3 v)).
  { intros w T L. split; [exact (three_on t w T L)|exact (three_im t w T)]. }
  destruct M as [t H|t H|t H|t H|t H|t H|t H|t H|t H|a b c x y z A B C|a a' b b' c c' x x' y y' z z' A A' B B' C C'|t i I H].
  - unfold iequal. change lower with lower_case. rewrite H. reflexivity.
  - destruct H as [H|H]; destruct (W _ H ltac:(cbn; lia)) as [-> E]; rewrite !E; reflexivity.
  - destruct (W _ H ltac:(cbn; lia)) as [-> E]; rewrite !E; reflexivity.
  - destruct H as [H|H]; destruct (W _ H ltac:(cbn; lia)) as [-> E]; rewrite !E; reflexivity.
  - destruct (W _ H ltac:(cbn; lia)) as [-> E]; rewrite !E; reflexivity.
  - destruct (W _ H ltac:(cbn; lia)) as [-> E]; rewrite !E; reflexivity.
  - destruct (W _ H ltac:(cbn; lia)) as [-> E]; rewrite !E; reflexivity.
  - destruct (W _ H ltac:(cbn; lia)) as [-> E]; rewrite !E; reflexivity.
  - destruct (W _ H ltac:(cbn; lia)) as [-> E]; rewrite !E; reflexivity.
  - change (iequal ["#"%char; a; b; c] (lit "on")) with false.
    assert (E : forall v, In v [lit "normal"; lit "default"; lit "bold"; lit "nobold"; lit "dim"; lit "bright"; lit "underline"; lit "nounderline"; lit "italic"; lit "reverse"] ->
      imatch3 ["#"%char; a; b; c] v = false) by (intros v V; cbn [In] in V; repeat (destruct V as [<-|V]; [reflexivity|]); destruct V).
    rewrite !E by (cbn [In]; tauto). cbn [orb]. cbv zeta.
    pose proof (hexval_ok a) as HA. rewrite A in HA. pose proof (hexval_ok b) as HB. rewrite B in HB. pose proof (hexval_ok c) as HC. rewrite C in HC.
    assert (PH : parsehex ["#"%char; a; b; c] = (Z.of_N (16 * x + x) * 65536 + Z.of_N (16 * y + y) * 256 + Z.of_N (16 * z + z))%Z).
    { unfold parsehex. cbn [length Nat.eqb Ascii.eqb Bool.eqb andb orb parsehex_loop]. destruct HA as [HA ->], HB as [HB ->], HC as [HC ->]. cbv zeta.
      repeat match goal with |- context [(Z.of_N ?x <? 0)%Z] => replace (Z.of_N x <? 0)%Z with false by lia end. lia. }
    rewrite PH. replace (0 <=? _)%Z with true at 1 by lia. reflexivity.
  - change (iequal ["#"%char; a; a'; b; b'; c; c'] (lit "on")) with false.
    assert (E : forall v, In v [lit "normal"; lit "default"; lit "bold"; lit "nobold"; lit "dim"; lit "bright"; lit "underline"; lit "nounderline"; lit "italic"; lit "reverse"] ->
      imatch3 ["#"%char; a; a'; b; b'; c; c'] v = false) by (intros v V; cbn [In] in V; repeat (destruct V as [<-|V]; [reflexivity|]); destruct V).
    rewrite !E by (cbn [In]; tauto). cbn [orb]. cbv zeta.
    pose proof (hexval_ok a) as HA. rewrite A in HA. pose proof (hexval_ok b) as HB. rewrite B in HB. pose proof (hexval_ok c) as HC. rewrite C in HC.
    pose proof (hexval_ok a') as HA'. rewrite A' in HA'. pose proof (hexval_ok b') as HB'. rewrite B' in HB'. pose proof (hexval_ok c') as HC'. rewrite C' in HC'.
    assert (PH : parsehex ["#"%char; a; a'; b; b'; c; c'] = (Z.of_N (16 * x + x') * 65536 + Z.of_N (16 * y + y') * 256 + Z.of_N (16 * z + z'))%Z).
    { unfold parsehex. cbn [length Nat.eqb Ascii.eqb Bool.eqb andb orb parsehex_loop]. destruct HA as [HA ->], HB as [HB ->], HC as [HC ->], HA' as [HA' ->], HB' as [HB' ->], HC' as [HC' ->]. cbv zeta.
      repeat match goal with |- context [(Z.of_N ?x <? 0)%Z] => replace (Z.of_N x <? 0)%Z with false by lia end. lia. }
    rewrite PH. replace (0 <=? _)%Z with true at 1 by lia. reflexivity.
  - assert (L : 3 <= length (colour_word i) /\ exists c r, colour_word i = c :: r /\ c <> "#"%char)
      by (do 8 (destruct i as [|i]; [split; [cbn; lia|eexists _, _; split; [reflexivity|discriminate]]|]); lia).
    destruct L as [L L2]. pose proof (hex_letters t _ H L2) as PH. destruct (W _ H L) as [-> E]. rewrite PH. rewrite !E. 
    assert (FN : find_name t color_names 0 = Some (Z.of_nat i)).
    { unfold find_name, color_names. rewrite !E. do 8 (destruct i as [|i]; [reflexivity|]). lia. }
    rewrite FN. do 8 (destruct i as [|i]; [reflexivity|]). lia.
Qed.

Lemma hex_means t : (0 <= parsehex t)%Z -> exists r g b, means t (KRgb r g b).
Proof.
  assert (D : forall c, parsehexdigit c <> (-1)%Z -> exists n, hexval c = Some n).
  { intros c N. pose proof (hexval_ok c) as H. destruct (hexval c) as [n|]; [exists n; reflexivity|congruence]. }
  assert (PN : forall c, (parsehexdigit c <? 0)%Z = true \/ parsehexdigit c <> (-1)%Z) by (intros c; destruct (Z.ltb_spec (parsehexdigit c) 0); [left; reflexivity|right; lia]).
  assert (LOOP : forall dbl l v, (0 <= parsehex_loop dbl l v)%Z -> Forall (fun c => exists n, hexval c = Some n) l).
  { intros dbl. induction l as [|c l IH]; intros v H; [constructor|]. cbn [parsehex_loop] in H. destruct (PN c) as [P|P]; [rewrite P in H; lia|].
    destruct (parsehexdigit c <? 0)%Z; [lia|]. constructor; [exact (D c P)|]. cbv zeta in H. exact (IH _ H). }
  intros H. destruct t as [|c r]; [cbn in H; lia|]. unfold parsehex in H. destruct (Ascii.eqb_spec c "#"); [|cbn [andb] in H; lia]. subst c. cbn [andb] in H.
  destruct (Nat.eqb (length ("#"%char :: r)) 4 || Nat.eqb (length ("#"%char :: r)) 7) eqn:L; [|lia]. cbn [length] in L. apply LOOP in H.
  apply orb_true_iff in L as [L|L]; apply Nat.eqb_eq in L.
  - destruct r as [|a [|b [|c [|d r]]]]; cbn [length] in L; try lia.
    inversion H as [|? ? [x A] H1]; subst. inversion H1 as [|? ? [y B] H2]; subst. inversion H2 as [|? ? [z C] _]; subst. eexists _, _, _. exact (m_rgb3 a b c x y z A B C).
  - destruct r as [|a [|b [|c [|d [|e [|f [|g r]]]]]]]; cbn [length] in L; try lia.
    inversion H as [|? ? [x A] H1]; subst. inversion H1 as [|? ? [y B] H2]; subst. inversion H2 as [|? ? [z C] H3]; subst.
    inversion H3 as [|? ? [x' A'] H4]; subst. inversion H4 as [|? ? [y' B'] H5]; subst. inversion H5 as [|? ? [z' C'] _]; subst.
    eexists _, _, _. exact (m_rgb6 a b c d e f x y z x' y' z' A B C A' B' C').
Qed.
Lemma step_some p t q : p_step p t = Some q -> exists k, means t k.
Proof.
  unfold p_step. destruct (iequal t (lit "on")) eqn:E0; [intros _; exists KOn; constructor; unfold iequal in E0; apply eqb_bytes_eq in E0; exact E0|].
  destruct (imatch3 t (lit "normal")) eqn:E1; [intros _; exists KDefault; constructor; right; apply three_iff; exact E1|].
  destruct (imatch3 t (lit "default")) eqn:E2; [intros _; exists KDefault; constructor; left; apply three_iff; exact E2|].
  destruct (imatch3 t (lit "bold")) eqn:E3; [intros _; exists (KBold true); constructor; apply three_iff; exact E3|].
  destruct (imatch3 t (lit "nobold")) eqn:E4; [intros _; exists (KBold false); constructor; left; apply three_iff; exact E4|].
  destruct (imatch3 t (lit "dim")) eqn:E5; [intros _; exists (KBold false); constructor; right; apply three_iff; exact E5|].
  cbn [orb]. destruct (imatch3 t (lit "bright")) eqn:E6; [intros _; exists KBright; constructor; apply three_iff; exact E6|].
  destruct (imatch3 t (lit "underline")) eqn:E7; [intros _; exists (KUnder true); constructor; apply three_iff; exact E7|].
  destruct (imatch3 t (lit "nounderline")) eqn:E8; [intros _; exists (KUnder false); constructor; apply three_iff; exact E8|].
  cbn [orb]. destruct (imatch3 t (lit "italic")) eqn:E9; [intros _; exists KItalic; constructor; apply three_iff; exact E9|].
  destruct (imatch3 t (lit "reverse")) eqn:E10; [intros _; exists KReverse; constructor; apply three_iff; exact E10|].
  cbv zeta. destruct (0 <=? parsehex t)%Z eqn:E11; [intros _; destruct (hex_means t) as (r & g & b & M); [lia|]; exists (KRgb r g b); exact M|].
  unfold find_name, color_names.
  repeat match goal with |- context [imatch3 t (lit ?w)] => destruct (imatch3 t (lit w)) eqn:? end; try discriminate; intros _;
    [exists (KName 0)|exists (KName 1)|exists (KName 2)|exists (KName 3)|exists (KName 4)|exists (KName 5)|exists (KName 6)|exists (KName 7)];
    (constructor; [lia|]); apply three_iff; assumption.
Qed.

(** ** The state after some words *)
Definition zval (o : option kind) : Z := match o with Some (KRgb r g b) => (Z.of_N r * 65536 + Z.of_N g * 256 + Z.of_N b)%Z | Some (KName i) => Z.of_nat i | _ => (-1)%Z end.
Definition zhex (o : option kind) : bool := match o with Some (KRgb _ _ _) => true | _ => false end.
Definition zbold (ks : list kind) : Z := match find is_bold ks with Some (KBold true) => 1 | Some _ => 0 | None => -1 end%Z.
Definition zund (ks : list kind) : Z := match find is_und ks with Some (KUnder true) => 1 | Some _ => 0 | None => -1 end%Z.
Definition zbri (ks : list kind) : Z := if any is_bri ks then 1%Z else (-1)%Z.
Definition zfront (ks : list kind) : Z :=
  let f := front ks in (zval (find is_col f) + (if any is_on ks && negb (zhex (find is_col f)) && any is_bri f then 8 else 0))%Z.
Definition after (ks : list kind) : pstate :=
  let on := any is_on ks in
  mkp (zfront ks) (if on then zval (find is_col (since ks)) else -1) (zhex (find is_col (front ks))) (on && zhex (find is_col (since ks)))
      (zbold ks) (zbri (since ks)) (zund ks) (any is_ital ks) (any is_rev ks) on (any is_def (since ks)).

Lemma any_app f a b : any f (a ++ b) = any f a || any f b.
Proof. apply existsb_app. Qed.
Lemma find_app {A} (f : A -> bool) a b : find f (a ++ b) = match find f a with Some x => Some x | None => find f b end.
Proof. induction a as [|x a IH]; [reflexivity|]. cbn [app find]. destruct (f x); [reflexivity|exact IH]. Qed.
Lemma find_any f l : any f l = match find f l with Some _ => true | None => false end.
Proof. induction l as [|x l IH]; [reflexivity|]. cbn [any existsb find]. destruct (f x); [reflexivity|exact IH]. Qed.
Lemma find_is f (l : list kind) x : find f l = Some x -> f x = true.
Proof. intros H. exact (proj2 (find_some f l H)). Qed.
Lemma since_snoc a k : since (a ++ [k]) = if is_on k then [] else since a ++ [k].
Proof. unfold since. rewrite fold_left_app. reflexivity. Qed.
Lemma front_snoc a k : front (a ++ [k]) = if any is_on a then front a else if is_on k then front a else front a ++ [k].
Proof.
  induction a as [|x a IH]; [cbn; destruct (is_on k); reflexivity|]. cbn [app front any existsb]. destruct (is_on x); cbn [orb]; [reflexivity|]. rewrite IH. unfold any. destruct (existsb is_on a), (is_on k); reflexivity.
Qed.
Lemma front_since a : any is_on a = false -> front a = a /\ since a = a.
Proof.
  induction a as [|x a IH] using rev_ind; [intros; split; reflexivity|]. rewrite any_app. intros H. apply orb_false_iff in H as [H1 H2]. cbn [any existsb] in H2.
  rewrite orb_false_r in H2. destruct (IH H1) as [F S']. rewrite front_snoc, since_snoc, H1, H2, F, S'. auto.
Qed.
Lemma col_z_range o : (forall k, o = Some k -> is_col k = true) -> (0 <=? zval o)%Z = match o with Some _ => true | None => false end.
Proof. intros H. destruct o as [k|]; [|reflexivity]. specialize (H k eq_refl). destruct k; try discriminate; cbn [zval]; lia. Qed.
Lemma rgb_any l : (forall k, find is_col l = Some k -> True) -> any is_rgb l = true -> any is_col l = true.
Proof. intros _. unfold any. rewrite !existsb_exists. intros (k & I & K). exists k. split; [exact I|]. destruct k; try discriminate; reflexivity. Qed.

Lemma fits_snoc a k : fits (a ++ [k]) <-> fits a /\ may_follow a k = true.
Proof.
  split.
  - intros H. split; [|exact (H a k [] eq_refl)]. intros x y z E. apply (H x y (z ++ [k])). rewrite E, <- app_assoc. reflexivity.
  - intros [H1 H2] x y z E. destruct z as [|w z _] using rev_ind.
    + apply app_inj_tail in E as [-> ->]. exact H2.
    + rewrite app_comm_cons, app_assoc in E. apply app_inj_tail in E as [E ->]. exact (H1 x y z E).
Qed.
Lemma fits_rgb ks : fits ks -> any is_rgb (since ks) = zhex (find is_col (since ks)).
Proof.
  induction ks as [|k ks IH] using rev_ind; [reflexivity|]. intros F. apply fits_snoc in F as [F M]. specialize (IH F). rewrite since_snoc. destruct (is_on k) eqn:O; [reflexivity|].
  rewrite any_app, find_app, IH. pose proof (find_any is_col (since ks)) as FA. destruct k; cbn [is_rgb is_col any existsb find orb may_follow] in *;
    rewrite ?orb_false_r; try (destruct (find is_col (since ks)); reflexivity).
  all: rewrite FA in M; destruct (find is_col (since ks)); [discriminate|reflexivity].
Qed.

Ltac kz := repeat match goal with
  | |- context [(0 <=? zbri ?l)%Z] => replace (0 <=? zbri l)%Z with (any is_bri l) by (unfold zbri; destruct (any is_bri l); reflexivity)
  | |- context [(0 <? zbri ?l)%Z] => replace (0 <? zbri l)%Z with (any is_bri l) by (unfold zbri; destruct (any is_bri l); reflexivity)
  end.
Lemma zbold_any ks : (0 <=? zbold ks)%Z = any is_bold ks.
Proof. unfold zbold. rewrite find_any. destruct (find is_bold ks) as [[]|]; try reflexivity. destruct b; reflexivity. Qed.
Lemma zund_any ks : (0 <=? zund ks)%Z = any is_und ks.
Proof. unfold zund. rewrite find_any. destruct (find is_und ks) as [[]|]; try reflexivity. destruct b; reflexivity. Qed.
Lemma zcol_any l : (0 <=? zval (find is_col l))%Z = any is_col l.
Proof. rewrite find_any. apply col_z_range. intros k. apply find_is. Qed.
Lemma find_none f l : any f l = false -> find f l = None.
Proof. rewrite find_any. destruct (find f l); [discriminate|reflexivity]. Qed.
Definition cur_color (ks : list kind) : p_color (after ks) = zval (find is_col (since ks)).
Proof.
  unfold p_color, after. cbn [p_on p_bg p_fg]. destruct (any is_on ks) eqn:O; [reflexivity|]. unfold zfront. rewrite O. destruct (front_since ks O) as [-> ->]. cbn [andb]. lia.
Qed.
Lemma cur_hex ks : p_hex (after ks) = zhex (find is_col (since ks)).
Proof. unfold p_hex, after. cbn [p_on p_bg_hex p_fg_hex]. destruct (any is_on ks) eqn:O; [reflexivity|]. destruct (front_since ks O) as [-> ->]. reflexivity. Qed.

Lemma set_cur ks v h : set_color (after ks) v h =
  let on := any is_on ks in
  mkp (if on then zfront ks else v) (if on then v else -1) (if on then zhex (find is_col (front ks)) else h) (on && h)
      (zbold ks) (zbri (since ks)) (zund ks) (any is_ital ks) (any is_rev ks) on (any is_def (since ks)).
Proof. unfold set_color, after. cbn [p_on p_fg p_bg p_fg_hex p_bg_hex p_bold p_bright p_underline p_italic p_reverse p_saw_default]. destruct (any is_on ks); reflexivity. Qed.

Lemma zbold_snoc ks k : zbold (ks ++ [k]) = if any is_bold ks then zbold ks else match k with KBold b => if b then 1%Z else 0%Z | _ => (-1)%Z end.
Proof. unfold zbold. rewrite find_app, find_any. destruct (find is_bold ks); [reflexivity|]. destruct k; reflexivity. Qed.
Lemma zund_snoc ks k : zund (ks ++ [k]) = if any is_und ks then zund ks else match k with KUnder b => if b then 1%Z else 0%Z | _ => (-1)%Z end.
Proof. unfold zund. rewrite find_app, find_any. destruct (find is_und ks); [reflexivity|]. destruct k; reflexivity. Qed.
Lemma zbold_id ks : (if any is_bold ks then zbold ks else (-1)%Z) = zbold ks.
Proof. unfold zbold. rewrite find_any. destruct (find is_bold ks); reflexivity. Qed.
Lemma zund_id ks : (if any is_und ks then zund ks else (-1)%Z) = zund ks.
Proof. unfold zund. rewrite find_any. destruct (find is_und ks); reflexivity. Qed.
Lemma zfront_snoc ks k : is_on k = false ->
  zfront (ks ++ [k]) = if any is_on ks then zfront ks else zval (find is_col (ks ++ [k])).
Proof.
  intros O. unfold zfront. rewrite any_app, front_snoc, O. cbn [any existsb]. rewrite O, orb_false_r. destruct (any is_on ks) eqn:ON; [reflexivity|].
  destruct (front_since ks ON) as [-> _]. cbn [andb orb]. lia.
Qed.
Lemma hfront_snoc ks k : is_on k = false -> find is_col (front (ks ++ [k])) = if any is_on ks then find is_col (front ks) else find is_col (ks ++ [k]).
Proof. intros O. rewrite front_snoc, O. destruct (any is_on ks) eqn:ON; [reflexivity|]. destruct (front_since ks ON) as [-> _]. reflexivity. Qed.

Lemma kstep_ok ks k : fits ks -> kstep (after ks) k = if may_follow ks k then Some (after (ks ++ [k])) else None.
Proof.
  intros F. pose proof (fits_rgb ks F) as FR.
  assert (SAME : is_on k = false -> is_col k = false -> forall fg bg fh bh,
     fg = zfront ks -> bg = (if any is_on ks then zval (find is_col (since ks)) else (-1)%Z) -> fh = zhex (find is_col (front ks)) -> bh = any is_on ks && zhex (find is_col (since ks)) ->
     after (ks ++ [k]) = mkp fg bg fh bh (zbold (ks ++ [k])) (zbri (since ks ++ [k])) (zund (ks ++ [k])) (any is_ital (ks ++ [k])) (any is_rev (ks ++ [k])) (any is_on ks) (any is_def (since ks ++ [k]))).
  { intros O C fg bg fh bh -> -> -> ->. unfold after. cbv zeta. rewrite since_snoc, O. assert (ON : any is_on (ks ++ [k]) = any is_on ks) by (rewrite any_app; cbn [any existsb]; rewrite O; apply orb_false_r).
    assert (FC : forall l, find is_col (l ++ [k]) = find is_col l) by (intros l; rewrite find_app; cbn [find]; rewrite C; destruct (find is_col l); reflexivity).
    rewrite ON, (zfront_snoc _ _ O), (hfront_snoc _ _ O), !FC. destruct (any is_on ks) eqn:E; [reflexivity|]. destruct (front_since ks E) as [F1 F2]. unfold zfront. rewrite E, F1. cbn [andb].
    f_equal; [lia|reflexivity..]. }
  assert (BR : forall l, is_bri k = false -> zbri (l ++ [k]) = zbri l) by (intros l B; unfold zbri; rewrite any_app; cbn [any existsb]; rewrite B, !orb_false_r; reflexivity).
  assert (BO : is_bold k = false -> zbold (ks ++ [k]) = zbold ks) by (intros B; rewrite zbold_snoc; destruct k; try discriminate; apply zbold_id).
  assert (UN : is_und k = false -> zund (ks ++ [k]) = zund ks) by (intros B; rewrite zund_snoc; destruct k; try discriminate; apply zund_id).
  assert (AN : forall f l, f k = false -> any f (l ++ [k]) = any f l) by (intros f l B; rewrite any_app; cbn [any existsb]; rewrite B, !orb_false_r; reflexivity).
  assert (AY : forall f l, f k = true -> any f (l ++ [k]) = true) by (intros f l B; rewrite any_app; cbn [any existsb]; rewrite B; apply orb_true_r).
  assert (COLOR : is_col k = true -> any is_col (since ks) = false -> forall h, h = zhex (Some k) -> Some (set_color (after ks) (zval (Some k)) h) = Some (after (ks ++ [k]))).
  { intros C N h ->. rewrite set_cur. assert (O : is_on k = false) by (destruct k; try discriminate; reflexivity). cbv zeta. unfold after. cbv zeta.
    rewrite since_snoc, O, (AN is_on ks O), (zfront_snoc _ _ O), (hfront_snoc _ _ O).
    rewrite BR, BO, UN by (destruct k; try discriminate; reflexivity). rewrite !AN by (destruct k; try discriminate; reflexivity).
    rewrite !find_app. rewrite (find_none is_col (since ks) N). cbn [find]. rewrite C. destruct (any is_on ks) eqn:E; [reflexivity|].
    destruct (front_since ks E) as [_ F2]. rewrite F2 in N. rewrite (find_none is_col ks N). reflexivity. }
  destruct k as [| |b| |b| | |r g b|i]; cbn [kstep may_follow].
  - change (p_on (after ks)) with (any is_on ks). destruct (any is_on ks) eqn:O; [reflexivity|]. cbn [negb]. f_equal. rewrite cur_hex.
    destruct (front_since ks O) as [F1 F2]. unfold after. cbv zeta. rewrite since_snoc, front_snoc, O. cbn [is_on]. rewrite (AY is_on ks eq_refl).
    cbn [p_bright p_fg p_bg p_fg_hex p_bg_hex p_bold p_underline p_italic p_reverse]. unfold zfront. rewrite (AY is_on ks eq_refl), front_snoc, O, F1, F2. cbn [is_on andb]. kz.
    rewrite BO, UN by reflexivity. rewrite !AN by reflexivity. cbn [find zval any existsb zbri]. f_equal. destruct (negb (zhex (find is_col ks)) && any is_bri ks); lia.
  - rewrite cur_color, zcol_any. destruct (any is_col (since ks)) eqn:C; [reflexivity|]. change (p_saw_default (after ks)) with (any is_def (since ks)).
    destruct (any is_def (since ks)) eqn:D; [reflexivity|]. cbn [negb andb]. f_equal. rewrite set_cur. cbv zeta. cbn [p_fg p_bg p_fg_hex p_bg_hex p_bold p_bright p_underline p_italic p_reverse p_on].
    pose proof (find_none is_col (since ks) C) as FN.
    rewrite (SAME eq_refl eq_refl (if any is_on ks then zfront ks else (-1)%Z) (if any is_on ks then (-1)%Z else (-1)%Z) (if any is_on ks then zhex (find is_col (front ks)) else false) (any is_on ks && false)).
    + rewrite BR, BO, UN by reflexivity. rewrite (AN is_ital), (AN is_rev), (AY is_def) by reflexivity. reflexivity.
    + destruct (any is_on ks) eqn:O; [reflexivity|]. destruct (front_since ks O) as [F1 F2]. unfold zfront. rewrite O, F1. rewrite F2 in FN. rewrite FN. reflexivity.
    + rewrite FN. reflexivity.
    + destruct (any is_on ks) eqn:O; [reflexivity|]. destruct (front_since ks O) as [F1 F2]. rewrite F1. rewrite F2 in FN. rewrite FN. reflexivity.
    + rewrite FN. reflexivity.
  - change (p_on (after ks)) with (any is_on ks). destruct (any is_on ks) eqn:O; [reflexivity|]. change (p_bold (after ks)) with (zbold ks). rewrite zbold_any.
    destruct (any is_bold ks) eqn:B; [reflexivity|]. cbn [negb andb]. f_equal. rewrite (SAME eq_refl eq_refl _ _ _ _ eq_refl eq_refl eq_refl eq_refl).
    rewrite BR, UN by reflexivity. rewrite (AN is_ital), (AN is_rev), (AN is_def) by reflexivity. rewrite zbold_snoc, B. unfold after. cbv zeta. rewrite O. reflexivity.
  - rewrite cur_hex, FR. destruct (zhex (find is_col (since ks))) eqn:H; [reflexivity|]. change (p_bright (after ks)) with (zbri (since ks)). kz.
    destruct (any is_bri (since ks)) eqn:B; [reflexivity|]. cbn [negb andb]. f_equal. rewrite (SAME eq_refl eq_refl _ _ _ _ eq_refl eq_refl eq_refl eq_refl).
    rewrite BO, UN by reflexivity. rewrite (AN is_ital), (AN is_rev), (AN is_def) by reflexivity. unfold zbri. rewrite AY by reflexivity. unfold after. cbv zeta. cbn [p_fg p_bg p_fg_hex p_bg_hex p_bold p_underline p_italic p_reverse p_on p_saw_default]. rewrite H. reflexivity.
  - change (p_on (after ks)) with (any is_on ks). destruct (any is_on ks) eqn:O; [reflexivity|]. change (p_underline (after ks)) with (zund ks). rewrite zund_any.
    destruct (any is_und ks) eqn:B; [reflexivity|]. cbn [negb andb]. f_equal. rewrite (SAME eq_refl eq_refl _ _ _ _ eq_refl eq_refl eq_refl eq_refl).
    rewrite BR, BO by reflexivity. rewrite (AN is_ital), (AN is_rev), (AN is_def) by reflexivity. rewrite zund_snoc, B. unfold after. cbv zeta. rewrite O. reflexivity.
  - change (p_on (after ks)) with (any is_on ks). destruct (any is_on ks) eqn:O; [reflexivity|]. change (p_italic (after ks)) with (any is_ital ks).
    destruct (any is_ital ks) eqn:B; [reflexivity|]. cbn [negb andb]. f_equal. rewrite (SAME eq_refl eq_refl _ _ _ _ eq_refl eq_refl eq_refl eq_refl).
    rewrite BR, BO, UN by reflexivity. rewrite (AY is_ital), (AN is_rev), (AN is_def) by reflexivity. unfold after. cbv zeta. rewrite O. reflexivity.
  - change (p_reverse (after ks)) with (any is_rev ks).
    destruct (any is_rev ks) eqn:B; [reflexivity|]. cbn [negb andb]. f_equal. rewrite (SAME eq_refl eq_refl _ _ _ _ eq_refl eq_refl eq_refl eq_refl).
    rewrite BR, BO, UN by reflexivity. rewrite (AN is_ital), (AY is_rev), (AN is_def) by reflexivity. reflexivity.
  - rewrite cur_color, zcol_any. destruct (any is_col (since ks)) eqn:C; [reflexivity|]. change (p_bright (after ks)) with (zbri (since ks)). kz.
    destruct (any is_bri (since ks)); [reflexivity|]. cbn [negb andb]. apply COLOR; reflexivity.
  - rewrite cur_color, zcol_any. destruct (any is_col (since ks)) eqn:C; [reflexivity|]. cbn [negb]. apply COLOR; [reflexivity|reflexivity|].
    rewrite cur_hex, (find_none _ _ C). reflexivity.
Qed.

Lemma run_means : forall ts ks, Forall2 means ts ks -> fits ks -> p_run p_init ts = Some (after ks).
Proof.
  intros ts ks H. induction ks as [|k ks IH] using rev_ind in ts, H |- *; intros F.
  - inversion H; subst. reflexivity.
  - apply Forall2_app_inv_r in H as (a & b & H1 & H2 & ->). inversion H2 as [|t k' x y M N]; subst. inversion N; subst. apply fits_snoc in F as [F MF].
    rewrite p_run_app, (IH a H1 F). cbn [p_run]. rewrite (step_means _ _ _ M), (kstep_ok ks k F), MF. reflexivity.
Qed.
Lemma run_some : forall ts q, p_run p_init ts = Some q -> exists ks, Forall2 means ts ks /\ fits ks.
Proof.
  intros ts. induction ts as [|t ts IH] using rev_ind; intros q H.
  - exists []. split; [constructor|]. intros a k b E. destruct a; discriminate.
  - rewrite p_run_app in H. destruct (p_run p_init ts) as [p|] eqn:E; [|discriminate]. destruct (IH p eq_refl) as (ks & M & F).
    rewrite (run_means ts ks M F) in E. injection E as <-. cbn [p_run] in H. destruct (p_step (after ks) t) as [p|] eqn:S'; [|discriminate].
    destruct (step_some _ _ _ S') as (k & K). exists (ks ++ [k]). split; [apply Forall2_app; [exact M|constructor; [exact K|constructor]]|].
    apply fits_snoc. split; [exact F|]. rewrite (step_means _ _ _ K), (kstep_ok ks k F) in S'. destruct (may_follow ks k); [reflexivity|discriminate].
Qed.

(** ** The code *)
Lemma means_valid t k : means t k -> match k with KRgb r g b => (r < 256)%N /\ (g < 256)%N /\ (b < 256)%N | KName i => i < 8 | _ => True end.
Proof.
  assert (H : forall c x, hexval c = Some x -> (x < 16)%N) by (intros c x E; pose proof (hexval_ok c) as X; rewrite E in X; tauto).
  intros M. destruct M; try exact Logic.I; try assumption;
    repeat match goal with E : hexval ?c = Some ?x |- _ => apply H in E end; lia.
Qed.
Definition kvalid (k : kind) : Prop := match k with KRgb r g b => (r < 256)%N /\ (g < 256)%N /\ (b < 256)%N | KName i => i < 8 | _ => True end.
Lemma find_col_cases l : Forall kvalid l -> find is_col l = None \/ (exists r g b, find is_col l = Some (KRgb r g b) /\ (r < 256)%N /\ (g < 256)%N /\ (b < 256)%N) \/ (exists i, find is_col l = Some (KName i) /\ i < 8).
Proof.
  intros F. destruct (find is_col l) as [k|] eqn:E; [right|left; reflexivity]. destruct (find_some _ _ E) as [I C]. rewrite Forall_forall in F. specialize (F k I).
  destruct k; try discriminate; [left; eexists _, _, _; split; [reflexivity|exact F]|right; eexists; split; [reflexivity|exact F]].
Qed.
Lemma side_valid l : Forall kvalid l -> forall x, side l = Some x -> valid_col x /\ x <> Dflt.
Proof.
  intros F x. unfold side. destruct (find_col_cases l F) as [->|[(r & g & b & -> & V)|(i & -> & V)]]; intros E; [discriminate|injection E as <-..]; (split; [exact V|discriminate]).
Qed.
Lemma side_v l : Forall kvalid l ->
  col_v (side l) = (zval (find is_col l) + (if any is_col l && negb (zhex (find is_col l)) && any is_bri l then 8 else 0))%Z /\ col_h (side l) = zhex (find is_col l).
Proof.
  intros F. rewrite (find_any is_col). unfold side. destruct (find_col_cases l F) as [->|[(r & g & b & -> & V)|(i & -> & V)]]; cbn [zhex zval negb andb col_v col_h col_hex col_z].
  - split; reflexivity.
  - split; [lia|reflexivity].
  - destruct (any is_bri l); (split; [cbn [col_z]; lia|reflexivity]).
Qed.
Lemma p_code_after ks : Forall kvalid ks -> p_code (after ks) = code (says ks).
Proof.
  intros F.
  assert (SUB : forall l, (forall x, In x l -> In x ks) -> Forall kvalid l) by (intros l H; rewrite Forall_forall in F |- *; auto).
  assert (FF : Forall kvalid (front ks)).
  { apply SUB. clear. induction ks as [|k ks IH]; [intros x []|]. cbn [front]. destruct (is_on k); [intros x []|]. intros x [<-|I]; [left; reflexivity|right; exact (IH x I)]. }
  assert (FS : Forall kvalid (since ks)).
  { apply SUB. clear. induction ks as [|k ks IH] using rev_ind; [intros x []|]. rewrite since_snoc. destruct (is_on k); [intros x []|]. intros x I. apply in_app_or in I as [I|I]; apply in_or_app; auto. }
  set (fgv := (if any is_on ks then zfront ks else zval (find is_col ks) + (if any is_col ks && negb (zhex (find is_col ks)) && any is_bri ks then 8 else 0))%Z).
  set (bgv := (if any is_on ks then zval (find is_col (since ks)) + (if any is_col (since ks) && negb (zhex (find is_col (since ks))) && any is_bri (since ks) then 8 else 0) else -1)%Z).
  assert (E : p_code (after ks) = lit "0" ++ (if any is_rev ks then lit ";7" else []) ++
     (if (0 <? zbold ks)%Z then lit ";1" else if (zbold ks =? 0)%Z then lit ";22" else []) ++ (if any is_ital ks then lit ";3" else []) ++
     (if (0 <? zund ks)%Z then lit ";4" else []) ++ color_code 30 fgv (zhex (find is_col (front ks))) ++ color_code 40 bgv (any is_on ks && zhex (find is_col (since ks)))).
  { unfold p_code. rewrite cur_color, cur_hex, zcol_any. change (p_bright (after ks)) with (zbri (since ks)). kz. set (hot := any is_col (since ks) && negb (zhex (find is_col (since ks))) && any is_bri (since ks)) in *.
    assert (Q : (if hot then set_color (after ks) (zval (find is_col (since ks)) + 8) (zhex (find is_col (since ks))) else after ks) =
       mkp fgv bgv (zhex (find is_col (front ks))) (any is_on ks && zhex (find is_col (since ks))) (zbold ks) (zbri (since ks)) (zund ks) (any is_ital ks) (any is_rev ks) (any is_on ks) (any is_def (since ks))).
    { unfold fgv, bgv. destruct (any is_on ks) eqn:O.
      - fold hot. destruct hot; [rewrite set_cur; cbv zeta; rewrite O; reflexivity|]. unfold after. cbv zeta. rewrite O. f_equal. lia.
      - destruct (front_since ks O) as [F1 F2]. unfold hot. rewrite F2, F1. destruct (any is_col ks && negb (zhex (find is_col ks)) && any is_bri ks).
        + rewrite set_cur. cbv zeta. rewrite O, F2. reflexivity.
        + unfold after. cbv zeta. unfold zfront. rewrite O, F1, F2. cbn [andb]. f_equal; lia. }
    rewrite Q. reflexivity. }
  rewrite E, code_semis. unfold says. cbn [a_rev a_bold a_ital a_und a_fg a_bg].
  assert (B : (if (0 <? zbold ks)%Z then lit ";1" else if (zbold ks =? 0)%Z then lit ";22" else []) = opt (match find is_bold ks with Some (KBold b) => Some b | _ => None end) (fun b => if b then lit ";1" else lit ";22")).
  { unfold zbold. destruct (find is_bold ks) as [k|] eqn:K; [|reflexivity]. apply find_is in K. destruct k; try discriminate. destruct b; reflexivity. }
  assert (U : (if (0 <? zund ks)%Z then lit ";4" else []) = if match find is_und ks with Some (KUnder b) => b | _ => false end then lit ";4" else []).
  { unfold zund. destruct (find is_und ks) as [k|] eqn:K; [|reflexivity]. apply find_is in K. destruct k; try discriminate. destruct b; reflexivity. }
  rewrite B, U. do 5 f_equal.
  assert (DS : forall l, Forall kvalid l -> dropd (side l) = side l) by (intros l V; destruct (side l) as [x|] eqn:X; [|reflexivity]; destruct (side_valid l V x X) as [_ N]; destruct x; [congruence|reflexivity..]).
  f_equal.
  - set (fgc := match side (front ks) with Some c => Some c | None => if any is_on ks && any is_bri (front ks) then Some (Named false 7) else None end).
    assert (V : forall x, fgc = Some x -> valid_col x /\ x <> Dflt).
    { intros x. unfold fgc. destruct (side (front ks)) as [c|] eqn:S'; [intros X; injection X as <-; exact (side_valid _ FF _ S')|]. destruct (any is_on ks && any is_bri (front ks)); intros X; [|discriminate X]. injection X as <-. split; [cbn; lia|discriminate]. }
    assert (D : dropd fgc = fgc) by (destruct fgc as [x|]; [|reflexivity]; destruct (V x eq_refl) as [_ N]; destruct x; [congruence|reflexivity..]).
    rewrite <- D, <- (color_code_eq 30 fgc) by (auto; intros x X; exact (proj1 (V x X))). change (Z.of_N 30) with 30%Z.
    assert (FV : fgv = col_v fgc /\ zhex (find is_col (front ks)) = col_h fgc).
    { unfold fgv, fgc, zfront. pose proof (side_v _ FF) as [SV SH]. destruct (any is_on ks) eqn:O.
      - cbn [andb]. destruct (find_col_cases _ FF) as [N|[(r & g & b & N & X)|(i & N & X)]].
        + assert (SN : side (front ks) = None) by (unfold side; rewrite N; reflexivity). rewrite SN, N. cbn [zhex zval negb andb]. destruct (any is_bri (front ks)); split; reflexivity.
        + assert (SN : side (front ks) = Some (Rgb r g b)) by (unfold side; rewrite N; reflexivity). rewrite SN in *. rewrite N. cbn [zhex zval negb andb col_v col_h col_hex col_z]. split; [lia|reflexivity].
        + assert (SN : side (front ks) = Some (Named (any is_bri (front ks)) i)) by (unfold side; rewrite N; reflexivity). rewrite SN in *. rewrite N. cbn [zhex zval negb andb].
          destruct (any is_bri (front ks)); cbn [col_v col_h col_hex col_z]; split; try reflexivity; lia.
      - cbn [andb]. destruct (front_since ks O) as [F1 _]. rewrite F1 in *. destruct (side ks) as [c|] eqn:S'; [rewrite SV, SH; auto|]. rewrite SV, SH. auto. }
    destruct FV as [-> ->]. reflexivity.
  - unfold bgv. destruct (any is_on ks); [|reflexivity]. cbn [andb]. destruct (side_v _ FS) as [<- <-]. change 40%Z with (Z.of_N 40).
    rewrite (color_code_eq 40) by (auto; intros x X; exact (proj1 (side_valid _ FS x X))). rewrite (DS _ FS). reflexivity.
Qed.

(** A colour text that is not a code is accepted exactly when its words, each taken by its meaning, may follow one another; then the
    code is the one of what they say. *)
Theorem words_exact v X : ~ raw v -> v <> [] ->
  (parse_color v = Some X <-> exists ts ks, pieces SPC v = ts /\ Forall2 means ts ks /\ fits ks /\ X = code (says ks)).
Proof.
  intros NR NE. unfold parse_color. destruct v as [|c v]; [congruence|]. set (ts := pieces SPC (c :: v)).
  assert (P : parse_words ts = option_map p_code (p_run p_init ts)).
  { destruct ts as [|t r] eqn:E; [reflexivity|]. unfold parse_words. rewrite (not_raw_head (c :: v) t r NR E). reflexivity. }
  rewrite P.
  assert (VAL : forall ks, Forall2 means ts ks -> Forall kvalid ks).
  { intros ks M. clear - M. induction M as [|t k ts ks M _ IH]; [constructor|]. constructor; [exact (means_valid t k M)|exact IH]. }
  split.
  - destruct (p_run p_init ts) as [q|] eqn:R; [|discriminate]. intros H. injection H as <-. destruct (run_some ts q R) as (ks & M & F). exists ts, ks.
    split; [reflexivity|]. split; [exact M|]. split; [exact F|]. rewrite (run_means ts ks M F) in R. injection R as <-. apply p_code_after. exact (VAL ks M).
  - intros (ts' & ks & <- & M & F & ->). rewrite (run_means ts ks M F). cbn [option_map]. f_equal. apply p_code_after. exact (VAL ks M).
Qed.
Print Assumptions words_exact.
(** A word has at most one meaning. *)
Theorem means_unique t k k' : means t k -> means t k' -> k = k'.
Proof.
  assert (I0 : kvalid k -> kvalid k' -> kstep p_init k = kstep p_init k' -> k = k').
  { destruct k as [| |[]| |[]| | |r g b|i], k' as [| |[]| |[]| | |r' g' b'|i']; cbn; intros V V'; try discriminate; try reflexivity; intros E; injection E as E; try lia.
    - destruct V as (? & ? & ?), V' as (? & ? & ?). assert (Z.of_N r = Z.of_N r') by lia. assert (Z.of_N g = Z.of_N g') by lia. assert (Z.of_N b = Z.of_N b') by lia. f_equal; lia.
    - f_equal. lia. }
  intros M M'. apply I0; [exact (means_valid t k M)|exact (means_valid t k' M')|]. rewrite <- (step_means _ _ _ M), <- (step_means _ _ _ M'). reflexivity.
Qed.
Print Assumptions means_unique.
Example words_exact_ex : Forall2 means [lit "BRIght"; lit "gre"; lit "on"; lit "#8f0"] [KBright; KName 2; KOn; KRgb 136 255 0] /\
  fits [KBright; KName 2; KOn; KRgb 136 255 0] /\ code (says [KBright; KName 2; KOn; KRgb 136 255 0]) = lit "0;92;48;2;136;255;0" /\
  ~ fits [KBold true; KName 1; KBold true].
Proof.
  split; [|split; [|split; [vm_compute; reflexivity|]]].
  - constructor; [constructor; reflexivity|]. constructor; [constructor; [lia|reflexivity]|]. constructor; [constructor; reflexivity|].
    constructor; [exact (m_rgb3 "8" "f" "0" 8 15 0 eq_refl eq_refl eq_refl)|constructor].
  - assert (F0 : fits []) by (intros a k b E; destruct a; discriminate).
    change [KBright; KName 2; KOn; KRgb 136 255 0] with (((([] ++ [KBright]) ++ [KName 2]) ++ [KOn]) ++ [KRgb 136 255 0]). repeat (apply fits_snoc; split; [|reflexivity]). exact F0.
  - intros H. specialize (H [KBold true; KName 1] (KBold true) [] eq_refl). discriminate.
Qed.
