(** Proofs for QueueModel. *)
From Verif Require Import Base UtfModel UtfSpec UtfProofs UtfProperties QueueModel QueueSpec.

Lemma w16_utf8 vs : Forall scalar vs -> w16 (flat_map utf8 vs) = flat_map utf16 vs.
Proof. exact (full16_utf8 vs). Qed.
Lemma w8_utf16 vs : Forall scalar vs -> w8 (flat_map utf16 vs) = flat_map utf8 vs.
Proof. exact (full8_utf16 vs). Qed.

(** ** line ends *)
Lemma strip_snoc l c : strip_line_endings (l ++ [c]) = if is_nl c then strip_line_endings l else l ++ [c].
Proof.
  unfold strip_line_endings. rewrite rev_app_distr. cbn [rev app strip_front]. destruct (is_nl c); [reflexivity|].
  cbn [rev]. rewrite rev_involutive. reflexivity.
Qed.

Lemma strip_split l : exists b, l = strip_line_endings l ++ b /\ Forall (fun c => c = 13 \/ c = 10)%N b /\
  (strip_line_endings l <> [] -> is_nl (last (strip_line_endings l) 0%N) = false).
Proof.
  induction l as [|c l IH] using rev_ind; [exists []; split; [reflexivity|]; split; [constructor|intro K; contradiction K; reflexivity]|].
  rewrite strip_snoc. destruct (is_nl c) eqn:E.
  - destruct IH as (b & E1 & H1 & H2). exists (b ++ [c]). split; [rewrite app_assoc, <- E1; reflexivity|]. split; [|exact H2].
    apply Forall_app. split; [exact H1|]. constructor; [|constructor]. unfold is_nl in E. lia.
  - exists []. rewrite app_nil_r. split; [reflexivity|]. split; [constructor|]. intros _. rewrite last_last. exact E.
Qed.

Lemma crlf_normal l : normal l (ensure_crlf l).
Proof.
  destruct (strip_split l) as (b & E & H1 & H2). unfold ensure_crlf. rewrite E at 1. constructor; [exact H1|].
  intro K. specialize (H2 K). unfold is_nl in H2. lia.
Qed.

Lemma strip_map (f : N -> list N) vs : (forall v, scalar v -> exists x y, f v = x ++ [y] /\ (is_nl v = true -> f v = [v]) /\ (is_nl y = is_nl v)) ->
  Forall scalar vs -> strip_line_endings (flat_map f vs) = flat_map f (strip_line_endings vs).
Proof.
  intros Hf. induction vs as [|v vs IH] using rev_ind; intro Hs; [reflexivity|]. apply Forall_app in Hs as [Hs Hv]. apply Forall_inv in Hv.
  rewrite flat_map_app. cbn [flat_map]. rewrite app_nil_r. rewrite strip_snoc. destruct (Hf v Hv) as (x & y & E & E1 & E2). destruct (is_nl v) eqn:En.
  - rewrite E1 by reflexivity. rewrite strip_snoc, En. exact (IH Hs).
  - rewrite E, app_assoc, strip_snoc, E2, flat_map_app. cbn [flat_map]. rewrite E, app_nil_r, app_assoc. reflexivity.
Qed.

Lemma utf8_last v : scalar v -> exists x y, utf8 v = x ++ [y] /\ (is_nl v = true -> utf8 v = [v]) /\ is_nl y = is_nl v /\ (y = 10%N <-> v = 10%N) /\ (forall z, In z x -> z <> 10%N).
Proof.
  intro H. apply scalar_bound in H. unfold utf8.
  destruct (N.ltb_spec v 128) as [L|L].
  { exists [], v. split; [reflexivity|]. split; [reflexivity|]. split; [reflexivity|]. split; [reflexivity|]. intros z []. }
  assert (En : is_nl v = false) by (unfold is_nl; lia).
  destruct (N.ltb_spec v 2048); [|destruct (N.ltb_spec v 65536)].
  - eexists [_], _. split; [reflexivity|]. split; [congruence|]. split; [unfold is_nl; lia|]. split; [lia|]. intros z [<-|[]]. lia.
  - eexists [_; _], _. split; [reflexivity|]. split; [congruence|]. split; [unfold is_nl; lia|]. split; [lia|]. intros z [<-|[<-|[]]]; lia.
  - eexists [_; _; _], _. split; [reflexivity|]. split; [congruence|]. split; [unfold is_nl; lia|]. split; [lia|]. intros z [<-|[<-|[<-|[]]]]; lia.
Qed.

Lemma utf16_last v : scalar v -> exists x y, utf16 v = x ++ [y] /\ (is_nl v = true -> utf16 v = [v]) /\ is_nl y = is_nl v /\ (y = 10%N <-> v = 10%N).
Proof.
  intro H. apply scalar_bound in H. unfold utf16. destruct (N.ltb_spec v 65536) as [L|L].
  - exists [], v. split; [reflexivity|]. split; [reflexivity|]. split; reflexivity.
  - eexists [_], _. split; [reflexivity|]. assert (En : is_nl v = false) by (unfold is_nl; lia). split; [congruence|]. split; [unfold is_nl; lia|lia].
Qed.

Lemma strip8 vs : Forall scalar vs -> strip_line_endings (flat_map utf8 vs) = flat_map utf8 (strip_line_endings vs).
Proof. apply strip_map. intros v H. destruct (utf8_last v H) as (x & y & A & B & C & _). exists x, y. auto. Qed.
Lemma strip16 vs : Forall scalar vs -> strip_line_endings (flat_map utf16 vs) = flat_map utf16 (strip_line_endings vs).
Proof. apply strip_map. intros v H. destruct (utf16_last v H) as (x & y & A & B & C & _). exists x, y. auto. Qed.

Lemma strip_scalar vs : Forall scalar vs -> Forall scalar (strip_line_endings vs).
Proof. intro H. destruct (strip_split vs) as (b & E & _). rewrite E in H. apply Forall_app in H as [H _]. exact H. Qed.
Lemma crlf_scalar vs : Forall scalar vs -> Forall scalar (ensure_crlf vs).
Proof. intro H. unfold ensure_crlf. apply Forall_app. split; [apply strip_scalar; exact H|]. repeat constructor; unfold scalar; lia. Qed.
Lemma crlf8 vs : Forall scalar vs -> ensure_crlf (flat_map utf8 vs) = flat_map utf8 (ensure_crlf vs).
Proof. intro H. unfold ensure_crlf. rewrite strip8 by exact H. rewrite flat_map_app. reflexivity. Qed.
Lemma crlf16 vs : Forall scalar vs -> ensure_crlf (flat_map utf16 vs) = flat_map utf16 (ensure_crlf vs).
Proof. intro H. unfold ensure_crlf. rewrite strip16 by exact H. rewrite flat_map_app. reflexivity. Qed.

Lemma flat_nil (f : N -> list N) vs : (forall v, scalar v -> f v <> []) -> Forall scalar vs -> flat_map f vs = [] -> vs = [].
Proof. intros Hf Hs E. destruct vs as [|v vs]; [reflexivity|]. apply Forall_inv in Hs. cbn [flat_map] in E. apply app_eq_nil in E as [E _]. destruct (Hf v Hs E). Qed.
Lemma utf8_nonempty v : scalar v -> utf8 v <> [].
Proof. intros H E. destruct (utf8_last v H) as (x & y & K & _). rewrite E in K. destruct x; discriminate. Qed.
Lemma utf16_nonempty v : scalar v -> utf16 v <> [].
Proof. intros H E. destruct (utf16_last v H) as (x & y & K & _). rewrite E in K. destruct x; discriminate. Qed.

Lemma last_flat (f : N -> list N) vs : (forall v, scalar v -> exists x y, f v = x ++ [y] /\ (y = 10%N <-> v = 10%N)) -> Forall scalar vs -> vs <> [] ->
  (last (flat_map f vs) 0 =? 10)%N = (last vs 0 =? 10)%N.
Proof.
  intros Hf Hs Hn. destruct (exists_last Hn) as (vs' & v & ->). apply Forall_app in Hs as [_ Hv]. apply Forall_inv in Hv.
  rewrite flat_map_app. cbn [flat_map]. rewrite app_nil_r. destruct (Hf v Hv) as (x & y & E & K). rewrite E, app_assoc, !last_last.
  destruct (N.eqb_spec y 10), (N.eqb_spec v 10); tauto.
Qed.

Lemma last_match {A B} (l : list A) (x y : B) : l <> [] -> match l with [] => x | _ => y end = y.
Proof. destruct l; [congruence|reflexivity]. Qed.

(** whether a line is finished can be told from its units *)
Lemma unfinished_units vs : Forall scalar vs -> unfinished (flat_map utf8 vs) = negb (ends_nl (flat_map utf16 vs)).
Proof.
  intro Hs. destruct vs as [|v vs]; [reflexivity|]. assert (Hn : v :: vs <> []) by discriminate. set (l := v :: vs) in *. clearbody l.
  unfold unfinished, ends_nl. rewrite (last_match (flat_map utf8 l)) by (intro K; apply (flat_nil utf8 l utf8_nonempty Hs) in K; contradiction).
  rewrite (last_match (flat_map utf16 l)) by (intro K; apply (flat_nil utf16 l utf16_nonempty Hs) in K; contradiction).
  rewrite !last_flat; auto.
  - intros w Hw. destruct (utf16_last w Hw) as (x & y & A & _ & _ & B). exists x, y. auto.
  - intros w Hw. destruct (utf8_last w Hw) as (x & y & A & _ & _ & B & _). exists x, y. auto.
Qed.

Lemma last_skipn (l : list N) c : c < length l -> last (skipn c l) 0%N = last l 0%N.
Proof.
  revert c; induction l as [|x l IH]; intros [|c] H; cbn [length] in H; try lia; [reflexivity|]. cbn [skipn]. rewrite IH by lia.
  destruct l; [cbn in H; lia|reflexivity].
Qed.

Lemma ends_skipn l c : c < length l -> ends_nl (skipn c l) = ends_nl l.
Proof.
  intro H. unfold ends_nl. rewrite (last_match (skipn c l)).
  - rewrite last_skipn by exact H. destruct l; [cbn in H; lia|reflexivity].
  - intro K. apply (f_equal (@length N)) in K. rewrite skipn_length in K. cbn in K. lia.
Qed.

(** ** the relation *)
Definition rel (e : qline) (s : seg) : Prop :=
  exists vs, Forall scalar vs /\ q_line e = flat_map utf8 vs /\ s_flags s = q_flags e /\
    s_fresh s = (q_cur e =? 0) /\ s_units s = skipn (q_cur e) (flat_map utf16 vs) /\
    (q_cur e <> 0 -> q_wline e = flat_map utf16 vs /\ q_cur e < length (flat_map utf16 vs)).

Lemma rel_unfinished e s : rel e s -> unfinished (q_line e) = negb (ends_nl (s_units s)).
Proof.
  intros (vs & Hs & El & _ & _ & Eu & Hc). rewrite El, Eu, unfinished_units by exact Hs. f_equal. destruct (q_cur e) as [|c]; [reflexivity|].
  destruct Hc as [_ Hc]; [discriminate|]. symmetry. apply ends_skipn. exact Hc.
Qed.

Lemma fresh_rel line w f vs : Forall scalar vs -> line = flat_map utf8 vs -> rel (mkQ line w 0 f) (mkS (w16 line) f true).
Proof. intros Hs ->. exists vs. rewrite w16_utf8 by exact Hs. cbn [q_line q_wline q_cur q_flags s_units s_flags s_fresh]. split; [exact Hs|]. split; [reflexivity|]. split; [reflexivity|]. split; [reflexivity|]. split; [reflexivity|]. intro K; contradiction. Qed.

Lemma back_ok q a t : text8 t -> Forall2 rel q a -> Forall2 rel (enqueue_back q t) (s_back a (w16 t)).
Proof.
  intros (vs & Hs & ->) H. unfold enqueue_back, s_back. destruct vs as [|v vs]; [exact H|].
  set (l := v :: vs) in *. assert (Hl : l <> []) by discriminate. clearbody l.
  assert (H8 : flat_map utf8 l <> []) by (intro K; apply (flat_nil utf8 l utf8_nonempty Hs) in K; contradiction).
  assert (H16 : flat_map utf16 l <> []) by (intro K; apply (flat_nil utf16 l utf16_nonempty Hs) in K; contradiction).
  assert (Hone : rel (mkQ (flat_map utf8 l) [] 0 show_only) (mkS (w16 (flat_map utf8 l)) show_only true)) by (apply (fresh_rel _ _ _ l); auto).
  rewrite (last_match (flat_map utf8 l)) by exact H8. rewrite (last_match (w16 (flat_map utf8 l))) by (rewrite w16_utf8 by exact Hs; exact H16).
  destruct (rev a) as [|s r] eqn:Er.
  - assert (a = []) by (rewrite <- (rev_involutive a), Er; reflexivity). subst a. inversion H; subst. constructor; [exact Hone|constructor].
  - assert (Ea : a = rev r ++ [s]) by (rewrite <- (rev_involutive a), Er; reflexivity). rewrite Ea in H |- *. apply Forall2_app_inv_r in H as (q1 & q2 & H1 & H2 & ->).
    inversion H2 as [|e s0 q2' a0 He Hn]; subst. inversion Hn; subst. rewrite (last_match (q1 ++ [e])) by (destruct q1; discriminate).
    rewrite last_last. cbv zeta. rewrite (rel_unfinished e s He). destruct (ends_nl (s_units s)) eqn:En; cbn [negb].
    + rewrite <- !app_assoc. apply Forall2_app; [exact H1|]. constructor; [exact He|]. constructor; [exact Hone|constructor].
    + rewrite removelast_last. apply Forall2_app; [exact H1|]. constructor; [|constructor].
      destruct He as (us & Hus & El & Ef & Efr & Eu & Hc). exists (us ++ l). cbn [q_line q_wline q_cur q_flags s_units s_flags s_fresh].
      split; [apply Forall_app; auto|]. split; [rewrite flat_map_app; congruence|]. split; [exact Ef|]. split; [exact Efr|].
      rewrite w16_utf8 by exact Hs. rewrite flat_map_app. destruct (q_cur e) as [|c] eqn:Ec.
      * split; [rewrite Eu; reflexivity|]. intro K; contradiction.
      * destruct Hc as [Ew Hc]; [discriminate|]. rewrite app_length. split; [|intros _; split; [rewrite Ew; reflexivity|lia]].
        rewrite Eu. rewrite skipn_app. f_equal. replace (S c - length (flat_map utf16 us)) with 0 by lia. reflexivity.
Qed.

Lemma front_ok : forall ls q a, Forall (fun x : list N * flags => text8 (fst x)) ls -> Forall2 rel q a ->
  exists ss, Forall2 (fun x s => normal (w16 (fst x)) (s_units s) /\ s_flags s = no_edit (snd x) /\ s_fresh s = true) ls ss /\
    Forall2 rel (enqueue_front q (map (fun x => mkQ (fst x) [] 0 (snd x)) ls)) (ss ++ a).
Proof.
  intros ls q a Hl H. unfold enqueue_front. rewrite <- map_rev, <- fold_left_rev_right, <- map_rev, rev_involutive.
  induction ls as [|[t f] ls IH]; [exists []; split; [constructor|exact H]|].
  inversion_clear Hl as [|? ? Ht Hl']. destruct (IH Hl') as (ss & H1 & H2). destruct Ht as (vs & Hs & E). cbn [fst] in E. subst t.
  exists (mkS (flat_map utf16 (ensure_crlf vs)) (no_edit f) true :: ss). split.
  - constructor; [|exact H1]. cbn [fst snd s_units s_flags s_fresh]. split; [|auto]. rewrite w16_utf8 by exact Hs. rewrite <- crlf16 by exact Hs. apply crlf_normal.
  - cbn [map fold_right app]. constructor; [|exact H2]. exists (ensure_crlf vs). cbn [q_line q_wline q_cur q_flags fst snd s_units s_flags s_fresh].
    split; [apply crlf_scalar; exact Hs|]. split; [apply crlf8; exact Hs|]. split; [reflexivity|]. split; [reflexivity|]. split; [reflexivity|]. intro K; contradiction.
Qed.

Lemma char_ok q a : Forall2 rel q a ->
  let '(ok, c, nl, q') := dequeue_char q in
  match s_char a with
  | None => ok = false /\ Forall2 rel q' a
  | Some (c', nl', a') => ok = true /\ c = c' /\ nl = nl' /\ Forall2 rel q' a'
  end.
Proof.
  intro H. destruct H as [|e s q a He H]; [split; [reflexivity|constructor]|]. pose proof (rel_unfinished e s He) as Hun. pose proof He as (vs & Hs & El & Ef & Efr & Eu & Hc).
  unfold dequeue_char, s_char.
  set (w := if q_cur e =? 0 then w16 (q_line e) else q_wline e).
  assert (Ew : w = flat_map utf16 vs). { unfold w. rewrite El. destruct (Nat.eqb_spec (q_cur e) 0) as [E0|E0]; [apply w16_utf8; exact Hs|apply Hc; exact E0]. }
  rewrite Ew. rewrite Eu in *. clear w Ew.
  assert (Hnl : (q_cur e =? 0) && negb (unfinished (q_line e)) && negb (length (q_line e) =? 0) = s_fresh s && ends_nl (skipn (q_cur e) (flat_map utf16 vs)) && negb (length (q_line e) =? 0)).
  { rewrite Hun, negb_involutive, Efr. reflexivity. }
  rewrite Hnl. destruct (skipn (q_cur e) (flat_map utf16 vs)) as [|c u] eqn:Eskip.
  - assert (Hlen : length (flat_map utf16 vs) <= q_cur e) by (apply (f_equal (@length N)) in Eskip; rewrite skipn_length in Eskip; cbn in Eskip; lia).
    replace (nth_error (flat_map utf16 vs) (q_cur e)) with (@None N) by (symmetry; apply nth_error_None; exact Hlen).
    split; [reflexivity|]. constructor; [|exact H]. exists vs. cbn [q_line q_wline q_cur q_flags]. split; [exact Hs|]. split; [exact El|]. split; [exact Ef|]. split; [exact Efr|].
    split; [congruence|]. intro K. destruct (Hc K) as [_ Hlt]. lia.
  - assert (Hnth : nth_error (flat_map utf16 vs) (q_cur e) = Some c).
    { rewrite <- (firstn_skipn (q_cur e) (flat_map utf16 vs)). rewrite Eskip. assert (Hlt : q_cur e < length (flat_map utf16 vs)).
      { apply (f_equal (@length N)) in Eskip. rewrite skipn_length in Eskip. cbn in Eskip. lia. }
      rewrite nth_error_app2; rewrite firstn_length; [|lia]. replace (q_cur e - Nat.min (q_cur e) (length (flat_map utf16 vs))) with 0 by lia. reflexivity. }
    rewrite Hnth. assert (Hlen : length (flat_map utf16 vs) = q_cur e + S (length u)).
    { apply (f_equal (@length N)) in Eskip. rewrite skipn_length in Eskip. cbn [length] in Eskip. lia. }
    split; [reflexivity|]. split; [reflexivity|]. split.
    + replace (length (q_line e) =? 0) with false; [rewrite andb_true_r; reflexivity|]. symmetry. apply Nat.eqb_neq. intro K. apply length_zero_iff_nil in K. rewrite El in K.
      apply (flat_nil utf8 vs utf8_nonempty Hs) in K. subst vs. cbn in Hlen. lia.
    + rewrite Hlen. destruct u as [|c2 u]; cbn [length].
      * destruct (Nat.leb_spec (q_cur e + 1) (S (q_cur e))); [exact H|lia].
      * destruct (Nat.leb_spec (q_cur e + S (S (length u))) (S (q_cur e))); [lia|]. constructor; [|exact H].
        exists vs. cbn [q_line q_wline q_cur q_flags s_units s_flags s_fresh]. split; [exact Hs|]. split; [exact El|]. split; [exact Ef|]. split; [reflexivity|].
        split; [|intros _; split; [reflexivity|cbn [length] in Hlen; lia]].
        replace (S (q_cur e)) with (q_cur e + 1) by lia. rewrite skipn_add, Eskip. reflexivity.
Qed.

(** ** alias pieces *)
Lemma next_line_spec t : let '(a, b) := next_line t in ~ In 10%N a /\ (t = a ++ 10%N :: b \/ (t = a /\ b = [])).
Proof.
  induction t as [|c t IH]; cbn [next_line]; [split; [intros []|right; auto]|].
  destruct (N.eqb_spec c 10) as [->|Nc]; [split; [intros []|left; reflexivity]|].
  destruct (next_line t) as [a b]. destruct IH as [Ha Ht]. split; [intros [K|K]; [congruence|auto]|].
  destruct Ht as [->|[-> ->]]; [left|right]; auto.
Qed.

Lemma pieces_lines fuel : forall t, length t < fuel -> lines_of t (pieces fuel t).
Proof.
  induction fuel as [|fuel IH]; intros t Hl; [lia|]. destruct t as [|c t]; [split; [constructor|left; reflexivity]|].
  cbn [pieces]. pose proof (next_line_spec (c :: t)) as Hn. destruct (next_line (c :: t)) as [a b]. destruct Hn as [Ha Ht].
  set (u := c :: t) in *. assert (Hu : u <> []) by discriminate. clearbody u. destruct Ht as [E|[E ->]].
  - assert (Hb : length b < fuel) by (rewrite E, app_length in Hl; cbn [length] in Hl; lia).
    destruct (IH b Hb) as [H1 H2]. split; [constructor; auto|]. cbn [map concat]. destruct H2 as [H2|[H2 H3]].
    + left. rewrite <- H2, E, <- app_assoc. reflexivity.
    + right. split; [rewrite <- H2, E, <- !app_assoc; reflexivity|]. destruct (pieces fuel b); [contradiction|exact H3].
  - subst a. replace (pieces fuel []) with (@nil (list N)) by (destruct fuel; reflexivity). split; [constructor; [exact Ha|constructor]|].
    right. cbn [map concat last]. rewrite app_nil_r. auto.
Qed.

Lemma next_line_text vs : Forall scalar vs -> exists va vb, Forall scalar va /\ Forall scalar vb /\ next_line (flat_map utf8 vs) = (flat_map utf8 va, flat_map utf8 vb).
Proof.
  induction vs as [|v vs IH]; intro Hs; [exists [], []; auto|]. inversion_clear Hs as [|? ? Hv Hs'].
  destruct (IH Hs') as (va & vb & Ha & Hb & E). cbn [flat_map].
  destruct (N.eqb_spec v 10) as [->|Nv]; [exists [], vs; auto|].
  destruct (utf8_last v Hv) as (x & y & Ex & _ & _ & Hy & Hx). exists (v :: va), vb. split; [constructor; auto|]. split; [exact Hb|]. cbn [flat_map]. rewrite Ex.
  assert (G : forall z r, (forall w, In w z -> w <> 10%N) -> next_line (z ++ r) = let '(a, b) := next_line r in (z ++ a, b)).
  { clear. induction z as [|c z IH]; intros r H; cbn [app next_line]; [destruct (next_line r); reflexivity|].
    destruct (N.eqb_spec c 10) as [E|E]; [exfalso; exact (H c (or_introl eq_refl) E)|]. rewrite IH by (intros w Hw; apply H; right; exact Hw). destruct (next_line r); reflexivity. }
  rewrite G, E; [reflexivity|]. intros w Hw. apply in_app_or in Hw as [Hw|[<-|[]]]; [exact (Hx w Hw)|]. intro K. apply Nv. apply Hy. exact K.
Qed.

Lemma pieces_text fuel : forall vs, Forall scalar vs -> Forall text8 (pieces fuel (flat_map utf8 vs)).
Proof.
  induction fuel as [|fuel IH]; intros vs Hs; [constructor|]. cbn [pieces]. destruct (flat_map utf8 vs) eqn:E; [constructor|]. rewrite <- E.
  destruct (next_line_text vs Hs) as (va & vb & Ha & Hb & En). rewrite En. constructor; [exists va; auto|exact (IH vb Hb)].
Qed.

Lemma pieces_nil fuel t : length t < fuel -> pieces fuel t = [] -> t = [].
Proof. destruct fuel; [lia|]. destruct t; [reflexivity|]. cbn [pieces]. destruct (next_line (n :: t)). discriminate. Qed.

Lemma push_rev {A} (l : list A) acc : fold_left (fun l x => x :: l) l acc = rev l ++ acc.
Proof. revert acc; induction l as [|x l IH]; intro acc; cbn [fold_left rev app]; [reflexivity|]. rewrite IH, <- app_assoc. reflexivity. Qed.
Lemma push_map {A B} (f : A -> B) (l : list A) acc : fold_left (fun l x => f x :: l) l acc = rev (map f l) ++ acc.
Proof. revert acc; induction l as [|x l IH]; intro acc; cbn [fold_left rev map app]; [reflexivity|]. rewrite IH, <- app_assoc. reflexivity. Qed.

Lemma line_ok resolve q a : (forall t, text8 t -> text8 (resolve t)) -> Forall2 rel q a ->
  match dequeue_line resolve q with
  | None => a = [] /\ q = []
  | Some (out, f, q') => exists a', s_step resolve a OLine (RLine (Some (out, f))) a' /\ Forall2 rel q' a'
  end.
Proof.
  intros Hr H. destruct H as [|e s q a He H]; [split; reflexivity|]. pose proof (rel_unfinished e s He) as Hun. pose proof He as (vs & Hs & El & Ef & Efr & Eu & Hc).
  unfold dequeue_line. set (out := match q_cur e with 0 => q_line e | S _ as c => w8 (skipn c (q_wline e)) end).
  assert (Eout : match q_cur e with 0 => q_line e | S n => w8 (skipn (S n) (q_wline e)) end = w8 (s_units s)).
  { rewrite Eu. destruct (q_cur e) as [|c]; [cbn [skipn]; rewrite w8_utf16 by exact Hs; exact El|]. destruct Hc as [-> _]; [discriminate|]. reflexivity. }
  change (match q_cur e with 0 => q_line e | S n => w8 (skipn (S n) (q_wline e)) end) with out in Eout. clearbody out. subst out.
  set (f := if unfinished (q_line e) then _ else _). cbv zeta.
  assert (Eff : f = with_edit (s_flags s) (s_units s)).
  { unfold f, with_edit. rewrite Hun, Ef. destruct (ends_nl (s_units s)); reflexivity. }
  assert (Eg : (q_cur e =? 0) && negb (f_hide f || f_show f || f_nodos f) = may_expand s).
  { unfold may_expand. rewrite Efr, Eff. unfold with_edit. destruct (ends_nl (s_units s)); reflexivity. }
  rewrite Eg. clearbody f. subst f. destruct (may_expand s) eqn:Em.
  - assert (Hfresh : q_cur e = 0). { unfold may_expand in Em. rewrite Efr in Em. apply andb_true_iff in Em as [Em _]. apply Nat.eqb_eq in Em. exact Em. }
    assert (Hw : w8 (s_units s) = q_line e). { rewrite Eu, Hfresh. cbn [skipn]. rewrite w8_utf16 by exact Hs. congruence. }
    set (x := strip_line_endings (q_line e)).
    assert (Hx : normal (w8 (s_units s)) (x ++ [13; 10]%N)) by (rewrite Hw; apply crlf_normal).
    assert (Ht : text8 (resolve x)). { apply Hr. exists (strip_line_endings vs). split; [apply strip_scalar; exact Hs|]. unfold x. rewrite El. apply strip8. exact Hs. }
    destruct (pieces (S (length (resolve x))) (resolve x)) as [|p ps] eqn:Ep.
    + exists a. split; [|exact H]. apply SLine; [|apply crlf_normal]. intros _. exists x. split; [exact Hx|]. apply (pieces_nil (S (length (resolve x)))); [lia|exact Ep].
    + rewrite push_rev, app_nil_r, push_map, map_rev, rev_involutive. eexists. split.
      * eapply SAlias; [exact Em|exact Hx| |apply crlf_normal]. rewrite <- Ep. apply pieces_lines. lia.
      * apply Forall2_app; [|exact H]. destruct Ht as (us & Hus & Et). pose proof (pieces_text (S (length (resolve x))) us Hus) as Hps. rewrite <- Et, Ep in Hps. apply Forall_inv_tail in Hps.
        clear -Hps. induction Hps as [|p ps (us & Hus & ->) Hps IH]; [constructor|]. cbn [map]. constructor; [|exact IH]. apply (fresh_rel _ _ _ us); auto.
  - exists a. split; [|exact H]. apply SLine; [congruence|apply crlf_normal].
Qed.
