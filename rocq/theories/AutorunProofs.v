(** Proofs about AutorunModel. *)
From Verif Require Import Base AutorunModel AutorunSpec.

Lemma starts_app n l : starts n l = true <-> exists r, l = n ++ r.
Proof.
  revert l. induction n as [|x n IH]; intro l; cbn [starts].
  - split; auto. intros _. exists l. reflexivity.
  - destruct l as [|y l].
    + split; [discriminate|]. intros (r & E). discriminate.
    + rewrite andb_true_iff, Ascii.eqb_eq, IH. split.
      * intros (-> & r & ->). exists r. reflexivity.
      * intros (r & E). injection E as -> ->. split; auto. exists r. reflexivity.
Qed.
Lemma strstr_some n l : forall k, strstr n l = Some k -> exists a b, l = a ++ n ++ b /\ length a = k.
Proof.
  induction l as [|c l IH]; intros k H; cbn [strstr] in H.
  - destruct (starts n []) eqn:E; [|discriminate]. injection H as <-. apply starts_app in E as (r & E). exists [], r. split; auto.
  - destruct (starts n (c :: l)) eqn:E.
    + injection H as <-. apply starts_app in E as (r & E). exists [], r. split; auto.
    + destruct (strstr n l) as [j|] eqn:S; [|discriminate]. injection H as <-. destruct (IH j eq_refl) as (a & b & -> & L).
      exists (c :: a), b. cbn. split; auto.
Qed.
Lemma strstr_none n l : strstr n l = None -> ~ occurs n l.
Proof.
  induction l as [|c l IH]; intros H (a & b & E); cbn [strstr] in H.
  - destruct (starts n []) eqn:X; [discriminate|]. apply Bool.not_true_iff_false in X. apply X, starts_app. destruct a; [|discriminate]. exists b. exact E.
  - destruct (starts n (c :: l)) eqn:X; [discriminate|]. destruct (strstr n l) as [j|]; [discriminate|].
    destruct a as [|x a].
    + apply Bool.not_true_iff_false in X. apply X, starts_app. exists b. exact E.
    + injection E as -> E. apply (IH eq_refl). exists a, b. exact E.
Qed.
Lemma needle_facts n : In n needles -> existsb (Ascii.eqb SPC) n = true /\ ~ In "&"%char n /\ n <> [] /\ ~ In QUOTE (firstn 1 n).
Proof.
  intro I.
  assert (F : Forall (fun n => existsb (Ascii.eqb SPC) n && negb (existsb (Ascii.eqb "&") n) && negb (existsb (Ascii.eqb QUOTE) (firstn 1 n)) && match n with [] => false | _ => true end = true) needles)
    by (repeat (apply Forall_cons; [reflexivity|]); apply Forall_nil).
  rewrite Forall_forall in F. specialize (F n I). apply andb_true_iff in F as [F F4]. apply andb_true_iff in F as [F F3]. apply andb_true_iff in F as [F1 F2].
  split; auto. apply negb_true_iff in F2, F3. split; [|split].
  - intro X. apply Bool.not_true_iff_false in F2. apply F2. apply existsb_exists. exists "&"%char. split; auto.
  - intros ->. discriminate.
  - intro X. apply Bool.not_true_iff_false in F3. apply F3. apply existsb_exists. exists QUOTE. split; auto.
Qed.
Lemma find_tag_some ns v t q : find_tag ns v = Some (t, q) -> exists n a b, In n ns /\ v = a ++ n ++ b /\ length a = t /\ q = existsb (Ascii.eqb SPC) n.
Proof.
  induction ns as [|n ns IH]; cbn [find_tag]; intro H; [discriminate|]. destruct (strstr n v) as [k|] eqn:E.
  - injection H as <- <-. destruct (strstr_some n v k E) as (a & b & A & L). exists n, a, b. cbn; auto.
  - destruct (IH H) as (m & a & b & I & A). exists m, a, b. cbn; auto.
Qed.
Lemma find_tag_none ns v : find_tag ns v = None -> forall n, In n ns -> ~ occurs n v.
Proof.
  induction ns as [|n ns IH]; cbn [find_tag]; intros H m I; [destruct I|]. destruct (strstr n v) eqn:E; [discriminate|].
  destruct I as [->|I]; [apply strstr_none; auto|auto].
Qed.
Lemma find_clink v : (exists a n b, find_tag needles v = Some (length a, true) /\ In n needles /\ v = a ++ n ++ b) \/ (find_tag needles v = None /\ ~ starts_clink v).
Proof.
  destruct (find_tag needles v) as [[t q]|] eqn:E.
  - left. destruct (find_tag_some _ _ _ _ E) as (n & a & b & I & V & L & Q). destruct (needle_facts n I) as [F _]. exists a, n, b. subst. rewrite F. auto.
  - right. split; auto. intros (n & I & O). exact (find_tag_none _ _ E n I O).
Qed.

(** ** Where a needle can be *)
Lemma prefix_amp n : forall c r y, ~ In "&"%char n -> c ++ "&"%char :: r = n ++ y -> exists y', c = n ++ y' /\ y = y' ++ "&"%char :: r.
Proof.
  induction n as [|x n IH]; intros c r y N E.
  - exists c. cbn in *. auto.
  - destruct c as [|d c]; cbn in E; injection E as X E; subst x.
    + exfalso. apply N. left. reflexivity.
    + destruct (IH c r y) as (y' & -> & Y); auto; [intro X; apply N; right; auto|]. exists y'. auto.
Qed.
Lemma split_amp n : n <> [] -> ~ In "&"%char n -> forall c r x y, c ++ "&"%char :: r = x ++ n ++ y ->
  (exists y', c = x ++ n ++ y' /\ y = y' ++ "&"%char :: r) \/ (exists x', x = c ++ "&"%char :: x' /\ r = x' ++ n ++ y).
Proof.
  intros N A. induction c as [|d c IH]; intros r x y E.
  - destruct x as [|h x]; cbn in E.
    + destruct n as [|h n]; [congruence|]. injection E as X E. subst h. exfalso. apply A. left. reflexivity.
    + injection E as X E. subst h. right. exists x. auto.
  - destruct x as [|h x].
    + cbn [app] in *. destruct (prefix_amp n (d :: c) r y A E) as (y' & Y1 & Y2). left. exists y'. auto.
    + cbn in E. injection E as <- E. destruct (IH r x y E) as [(y' & -> & Y)|(x' & -> & X)]; [left; exists y'; auto|right; exists x'; auto].
Qed.
(** A text before others, with its "&" *)
Definition before (a : list bytes) : bytes := flat_map (fun c => c ++ ["&"%char]) a.
Definition behind (b : list bytes) : bytes := match b with [] => [] | _ => "&"%char :: joined b end.
Lemma joined_split a e b : joined (a ++ e :: b) = before a ++ e ++ behind b.
Proof.
  unfold before. induction a as [|c a IH]; cbn [app flat_map].
  - destruct b; cbn [joined behind]; [rewrite app_nil_r|]; reflexivity.
  - replace (joined (c :: a ++ e :: b)) with (c ++ "&"%char :: joined (a ++ e :: b)) by (destruct a; reflexivity).
    rewrite IH, <- !app_assoc. reflexivity.
Qed.
Lemma needle_place n : n <> [] -> ~ In "&"%char n -> forall cs x y, joined cs = x ++ n ++ y ->
  exists a e b x' y', cs = a ++ e :: b /\ e = x' ++ n ++ y' /\ x = before a ++ x'.
Proof.
  intros N A. induction cs as [|c cs IH]; intros x y E.
  - cbn in E. destruct x; [|discriminate]. destruct n; [congruence|discriminate].
  - destruct cs as [|d cs].
    + cbn [joined] in E. exists [], c, [], x, y. cbn. auto.
    + change (joined (c :: d :: cs)) with (c ++ "&"%char :: joined (d :: cs)) in E.
      destruct (split_amp n N A _ _ _ _ E) as [(y' & -> & _)|(x' & -> & R)].
      * exists [], (x ++ n ++ y'), (d :: cs), x, y'. cbn. auto.
      * destruct (IH x' y R) as (a & e & b & x2 & y2 & -> & -> & ->). exists (c :: a), (x2 ++ n ++ y2), b, x2, y2.
        split; [reflexivity|]. split; [reflexivity|]. unfold before. cbn [flat_map]. rewrite <- !app_assoc. reflexivity.
Qed.

(** ** The extents *)
Lemma at_app_r a b i : at_ (a ++ b) (length a + i) = at_ b i.
Proof. unfold at_. rewrite app_nth2 by lia. f_equal. lia. Qed.
Lemma at_app_l a b i : i < length a -> at_ (a ++ b) i = at_ a i.
Proof. intro H. unfold at_. apply app_nth1. exact H. Qed.

Lemma scan_none v c : (forall i, 0 < i <= c -> at_ v i <> "&"%char) -> scan_left v c false = 0.
Proof.
  induction c as [|c IH]; intro H; cbn [scan_left]; auto.
  replace (Ascii.eqb (at_ v (S c)) "&") with false by (symmetry; apply Ascii.eqb_neq; apply H; lia). apply IH. intros i I. apply H. lia.
Qed.
Lemma scan_none_q v c : (forall i, 0 < i <= c -> at_ v i <> QUOTE) -> scan_left v c true = 0.
Proof.
  induction c as [|c IH]; intro H; cbn [scan_left]; auto.
  replace (Ascii.eqb (at_ v (S c)) QUOTE) with false by (symmetry; apply Ascii.eqb_neq; apply H; lia). apply IH. intros i I. apply H. lia.
Qed.
Lemma scan_amp v p c : p < c -> at_ v (S p) = "&"%char -> (forall i, S p < i <= c -> at_ v i <> "&"%char) ->
  scan_left v c false = if Ascii.eqb (at_ v p) "&" then p else S p.
Proof.
  intros L E. induction c as [|c IH]; intro H; [lia|]. cbn [scan_left]. destruct (Nat.eq_dec c p) as [->|N].
  - rewrite E. cbn [Ascii.eqb]. reflexivity.
  - replace (Ascii.eqb (at_ v (S c)) "&") with false by (symmetry; apply Ascii.eqb_neq; apply H; lia). apply IH; [lia|]. intros i I. apply H. lia.
Qed.
Lemma scan_quote v p c : p < c -> at_ v (S p) = QUOTE -> (forall i, S p < i <= c -> at_ v i <> QUOTE) -> scan_left v c true = scan_left v p false.
Proof.
  intros L E. induction c as [|c IH]; intro H; [lia|]. cbn [scan_left]. destruct (Nat.eq_dec c p) as [->|N].
  - rewrite E. reflexivity.
  - replace (Ascii.eqb (at_ v (S c)) QUOTE) with false by (symmetry; apply Ascii.eqb_neq; apply H; lia). apply IH; [lia|]. intros i I. apply H. lia.
Qed.
Lemma at_in l i : i < length l -> In (at_ l i) l.
Proof. intro H. unfold at_. apply nth_In. exact H. Qed.
Lemma last_quote x : In QUOTE x -> exists u w, x = u ++ QUOTE :: w /\ ~ In QUOTE w.
Proof.
  induction x as [|c x IH]; intro I; [destruct I|]. destruct (in_dec ascii_dec QUOTE x) as [J|J].
  - destruct (IH J) as (u & w & -> & W). exists (c :: u), w. auto.
  - destruct I as [->|I]; [|contradiction]. exists [], x. auto.
Qed.

Lemma index_amp e r : ~ In "&"%char e -> index_of "&" (e ++ "&"%char :: r) = length e.
Proof.
  induction e as [|c e IH]; intro N; cbn [app index_of length].
  - reflexivity.
  - replace (Ascii.eqb c "&") with false by (symmetry; apply Ascii.eqb_neq; intros ->; apply N; left; reflexivity). rewrite IH; auto. intro X. apply N. right. exact X.
Qed.
Lemma index_none e : ~ In "&"%char e -> index_of "&" e = length e.
Proof.
  induction e as [|c e IH]; intro N; cbn [index_of length]; auto.
  replace (Ascii.eqb c "&") with false by (symmetry; apply Ascii.eqb_neq; intros ->; apply N; left; reflexivity). rewrite IH; auto. intro X. apply N. right. exact X.
Qed.
Lemma copy_split l r : l <= r -> forall t i, copy_except l r i t = firstn (l - i) t ++ skipn (r - i) t.
Proof.
  intro L. induction t as [|c t IH]; intro i; cbn [copy_except].
  - rewrite firstn_nil, skipn_nil. reflexivity.
  - destruct (Nat.ltb_spec i l) as [A|A]; cbn [orb].
    + rewrite IH. replace (l - i) with (S (l - S i)) by lia. replace (r - i) with (S (r - S i)) by lia. reflexivity.
    + destruct (Nat.leb_spec r i) as [B|B].
      * rewrite IH. replace (l - i) with 0 by lia. replace (r - i) with 0 by lia. replace (l - S i) with 0 by lia. replace (r - S i) with 0 by lia. reflexivity.
      * rewrite IH. replace (l - i) with 0 by lia. replace (l - S i) with 0 by lia. replace (r - i) with (S (r - S i)) by lia. reflexivity.
Qed.
Lemma lead_iff c : is_space c || Ascii.eqb c "&" = true <-> lead c.
Proof.
  unfold lead. split.
  - destruct c as [[] [] [] [] [] [] [] []]; intro H; try discriminate H; cbn; auto 10.
  - cbn. intros [<-|[<-|[<-|[<-|[<-|[<-|[<-|[]]]]]]]]; reflexivity.
Qed.
Lemma cmd_start_left l : left_over l (match cmd_start l with [] => None | x => Some x end).
Proof.
  induction l as [|c l IH]; cbn [cmd_start].
  - exists [], []. split; auto. split; auto. split; auto. discriminate.
  - destruct (is_space c || Ascii.eqb c "&") eqn:E.
    + destruct IH as (z & r & L & F & H & V). exists (c :: z), r. split; [cbn; congruence|]. split; [apply Forall_cons; auto; apply lead_iff; auto|]. auto.
    + exists [], (c :: l). split; auto. split; auto. split; auto. intros x q X. injection X as <- <-. intro Y. apply lead_iff in Y. congruence.
Qed.
Lemma left_over_fun l v w : left_over l v -> left_over l w -> v = w.
Proof.
  intros (z & r & E & F & H & ->) (z' & r' & E' & F' & H' & ->). assert (X : r = r').
  { subst l. revert z' F' E'. induction F as [|c z C F IH]; intros z' F' E'.
    - destruct F' as [|c z' C F']; [exact E'|]. cbn in E'. exfalso. apply (H c (z' ++ r')); auto.
    - destruct F' as [|c' z' C' F'].
      + cbn in E'. exfalso. apply (H' c (z ++ r)); auto.
      + cbn in E'. injection E' as -> E'. eapply IH; eauto. }
  subst. reflexivity.
Qed.
