(** Proofs about rows of the terminal and the characters of a text. *)
From Verif Require Import Base DispModel DispSpec.
Open Scope nat_scope.

Definition sound (l : list cell) : Prop := mend 0 l = l.
Lemma mend_len l : forall k, length (mend k l) = length l.
Proof. induction l as [|c l IH]; intros [|k]; cbn [mend length]; try reflexivity; [|f_equal; apply IH]. destruct c as [|t w|]; cbn [length]; try (f_equal; apply IH). destruct ((1 <=? w) && owed (w - 1) l); cbn [length]; f_equal; apply IH. Qed.
Lemma mend_blanks n l : mend 0 (blanks n ++ l) = blanks n ++ mend 0 l.
Proof. unfold blanks. induction n as [|n IH]; [reflexivity|]. cbn [repeat app mend]. rewrite IH. reflexivity. Qed.
Lemma mend_rest n l : mend n (repeat Rest n ++ l) = repeat Rest n ++ mend 0 l.
Proof. induction n as [|n IH]; [reflexivity|]. cbn [repeat app mend]. rewrite IH. reflexivity. Qed.
Lemma owed_rest n l : owed n (repeat Rest n ++ l) = true.
Proof. induction n as [|n IH]; [reflexivity|]. cbn [repeat app owed]. exact IH. Qed.
Lemma whole_nil : whole []. Proof. intro l. reflexivity. Qed.
Lemma whole_app p q : whole p -> whole q -> whole (p ++ q).
Proof. intros Hp Hq l. rewrite <- !app_assoc, Hp, Hq. reflexivity. Qed.
Lemma whole_blanks n : whole (blanks n). Proof. intro l. apply mend_blanks. Qed.
Lemma whole_sound p : whole p -> sound p.
Proof. intro H. specialize (H []). rewrite app_nil_r in H. cbn [mend] in H. rewrite app_nil_r in H. exact H. Qed.
Lemma sound_app p r : whole p -> sound r -> sound (p ++ r).
Proof. intros Hp Hr. unfold sound. rewrite Hp, Hr. reflexivity. Qed.
Lemma sound_blanks n : sound (blanks n). Proof. apply whole_sound, whole_blanks. Qed.
Lemma whole_cell g : 1 <= wid g -> whole (cells_of g).
Proof.
  intros Hw l. unfold cells_of. destruct (teqb (fst g) _); [apply mend_blanks|]. cbn [app mend]. rewrite owed_rest. replace (1 <=? wid g) with true by lia. cbn [andb]. rewrite mend_rest. reflexivity.
Qed.
Lemma cell_len g : 1 <= wid g -> length (cells_of g) = wid g.
Proof. intro H. unfold cells_of. destruct (teqb (fst g) _); [apply repeat_length|]. cbn [length]. rewrite repeat_length. lia. Qed.
Lemma owed_sound k u v : sound v -> owed k (u ++ v) = true -> k <= length u.
Proof.
  intro Hv. revert u. induction k as [|k IH]; intros u H; [lia|]. destruct u as [|c u].
  - cbn [app] in H. destruct v as [|c v]; [discriminate H|]. destruct c; try discriminate H. unfold sound in Hv. cbn [mend] in Hv. discriminate Hv.
  - cbn [app owed] in H. destruct c; try discriminate H. specialize (IH _ H). cbn [length]. lia.
Qed.
Lemma mend_tail v : sound v -> forall u k, k <= length u -> exists u', length u' = length u /\ mend k (u ++ v) = u' ++ v.
Proof.
  intro Hv. induction u as [|c u IH]; intros k Hk.
  - cbn [length] in Hk. replace k with 0 by lia. exists []. split; [reflexivity|exact Hv].
  - cbn [length] in Hk. destruct k as [|k].
    + cbn [app mend]. assert (Hb : exists u', length u' = length u /\ mend 0 (u ++ v) = u' ++ v) by (apply IH; lia). destruct Hb as (b & Lb & Eb).
      destruct c as [|t w|]; try (exists (Blank :: b); split; [cbn [length]; lia|rewrite Eb; reflexivity]).
      destruct ((1 <=? w) && owed (w - 1) (u ++ v)) eqn:E; [|exists (Blank :: b); split; [cbn [length]; lia|rewrite Eb; reflexivity]].
      apply andb_true_iff in E as [_ E]. apply (owed_sound _ _ _ Hv) in E. destruct (IH _ E) as (x & Lx & Ex). exists (Glyph t w :: x). split; [cbn [length]; lia|rewrite Ex; reflexivity].
    + destruct (IH k ltac:(lia)) as (x & Lx & Ex). exists (c :: x). split; [cbn [length]; lia|]. cbn [app mend]. rewrite Ex. reflexivity.
Qed.
Lemma firstn_app_l (A : Type) (p q : list A) n : n = length p -> firstn n (p ++ q) = p.
Proof. intros ->. rewrite firstn_app, Nat.sub_diag, firstn_all. cbn [firstn]. apply app_nil_r. Qed.
Lemma skipn_app_l (A : Type) (p q : list A) n : n = length p -> skipn n (p ++ q) = q.
Proof. intros ->. rewrite skipn_app, Nat.sub_diag, skipn_all. reflexivity. Qed.
(** printing over whole cells *)
Lemma over_ok p x q r c : whole p -> whole x -> c = length p -> length q = length x -> sound r -> over c x (p ++ q ++ r) = p ++ x ++ r.
Proof.
  intros Hp Hx -> Hq Hr. unfold over. destruct x as [|a x]; [destruct q; [reflexivity|discriminate Hq]|].
  rewrite firstn_app_l by reflexivity. rewrite (app_assoc p q r). rewrite (skipn_app_l _ (p ++ q) r) by (rewrite app_length; lia). rewrite Hp, Hx, Hr. reflexivity.
Qed.
(** printing over anything: what remains of the row from a sound place on is unchanged *)
Lemma over_any p x u v c : whole p -> whole x -> c = length p -> length x <= length u -> sound v -> exists u', length u' = length u - length x /\ over c x (p ++ u ++ v) = p ++ x ++ u' ++ v.
Proof.
  intros Hp Hx -> Hu Hv. unfold over. destruct x as [|a x]; [exists u; cbn [length]; split; [lia|reflexivity]|]. set (y := a :: x) in *.
  rewrite firstn_app_l by reflexivity. replace (skipn (length p + length y) (p ++ u ++ v)) with (skipn (length y) u ++ v).
  2:{ rewrite (skipn_app (length p + length y) p), (skipn_all2 p) by lia. replace (length p + length y - length p) with (length y) by lia. rewrite (skipn_app (length y) u). replace (length y - length u) with 0 by lia. reflexivity. }
  rewrite Hp, Hx. destruct (mend_tail v Hv (skipn (length y) u) 0 ltac:(lia)) as (u' & Lu & Eu). exists u'. rewrite skipn_length in Lu. split; [exact Lu|]. rewrite Eu. reflexivity.
Qed.

(** ** The characters of a text *)
Section Gl.
Variable gl : text -> list cluster.
Variable ok : N -> Prop.
Variable solid : N -> bool.
Definition okt (t : text) : Prop := Forall (fun c : tch => ok (fst c)) t.
Definition starts_solid (t : text) : Prop := match t with [] => True | c :: _ => solid (fst c) = true end.
(** what is known about wcwidth_iter; proved for it in DispWc *)
Record iterates : Prop := {
  it_concat : forall t, okt t -> concat (map fst (gl t)) = t;
  it_ne : forall t, okt t -> Forall (fun g : cluster => fst g <> []) (gl t);
  it_pos : forall t, okt t -> Forall (fun g : cluster => 1 <= wid g) (gl t);
  it_cut : forall t k, okt t -> gl (concat (map fst (firstn k (gl t)))) = firstn k (gl t);
  it_rest : forall t k, okt t -> gl (concat (map fst (skipn k (gl t)))) = skipn k (gl t);
  it_app : forall a b, okt a -> okt b -> starts_solid b -> gl (a ++ b) = gl a ++ gl b;
  it_ascii : forall c f, (32 <= c < 127)%N -> gl [(c, f)] = [([(c, f)], 1%Z)];
  it_ok : forall c, (0 < c < 128)%N -> ok c;
  it_solid : forall c, ok c -> (c < 128)%N -> solid c = true }.
Hypothesis It : iterates.

Lemma okt_app a b : okt (a ++ b) <-> okt a /\ okt b. Proof. apply Forall_app. Qed.
Lemma gl_nil : gl [] = [].
Proof. pose proof (it_concat It [] ltac:(constructor)) as H. pose proof (it_ne It [] ltac:(constructor)) as F. destruct (gl []) as [|g l]; [reflexivity|]. inversion F as [|? ? Hg _]. cbn [map concat] in H. apply app_eq_nil in H as [H _]. contradiction. Qed.
Lemma cells_nil : cells gl [] = []. Proof. unfold cells. rewrite gl_nil. reflexivity. Qed.
Lemma cells_split a b : okt a -> okt b -> starts_solid b -> cells gl (a ++ b) = cells gl a ++ cells gl b.
Proof. intros Ha Hb Hs. unfold cells. rewrite (it_app It a b Ha Hb Hs). apply flat_map_app. Qed.
Lemma fm_len l : Forall (fun g : cluster => 1 <= wid g) l -> length (flat_map cells_of l) = width l.
Proof. induction 1 as [|g l Hg H IH]; [reflexivity|]. cbn [flat_map width]. rewrite app_length, IH, cell_len by exact Hg. reflexivity. Qed.
Lemma cells_len t : okt t -> length (cells gl t) = width (gl t).
Proof. intro H. apply fm_len, (it_pos It t H). Qed.
Lemma fm_whole l : Forall (fun g : cluster => 1 <= wid g) l -> whole (flat_map cells_of l).
Proof. induction 1 as [|g l Hg H IH]; [apply whole_nil|]. cbn [flat_map]. apply whole_app; [apply whole_cell; exact Hg|exact IH]. Qed.
Lemma cells_whole t : okt t -> whole (cells gl t).
Proof. intro H. apply fm_whole, (it_pos It t H). Qed.
Lemma okt_spaces n : okt (spaces n).
Proof. unfold okt, spaces. induction n as [|n IH]; cbn [repeat]; constructor; [|exact IH]. apply (it_ok It). cbn [fst]. lia. Qed.
Lemma cells_spaces n : cells gl (spaces n) = blanks n.
Proof.
  unfold spaces, blanks. induction n as [|n IH]; [apply cells_nil|]. cbn [repeat]. change ((32%N, f_normal) :: repeat (32%N, f_normal) n) with ([(32%N, f_normal)] ++ repeat (32%N, f_normal) n).
  rewrite cells_split.
  - rewrite IH. unfold cells. rewrite (it_ascii It) by lia. reflexivity.
  - constructor; [|constructor]. apply (it_ok It). cbn [fst]. lia.
  - apply (okt_spaces n).
  - destruct n as [|n]; cbn [repeat starts_solid]; [exact Logic.I|]. apply (it_solid It); [apply (it_ok It)|]; cbn [fst]; lia.
Qed.
Lemma solid_spaces n : starts_solid (spaces n).
Proof. destruct n as [|n]; cbn [spaces repeat starts_solid]; [exact Logic.I|]. apply (it_solid It); [apply (it_ok It)|]; cbn [fst]; lia. Qed.
(** a text cut after some characters *)
Lemma gl_split t k : okt t -> exists a b, t = a ++ b /\ gl a = firstn k (gl t) /\ gl b = skipn k (gl t) /\ a = concat (map fst (firstn k (gl t))) /\ b = concat (map fst (skipn k (gl t))) /\ okt a /\ okt b /\ cells gl t = cells gl a ++ cells gl b.
Proof.
  intro H. exists (concat (map fst (firstn k (gl t)))), (concat (map fst (skipn k (gl t)))).
  assert (E : t = concat (map fst (firstn k (gl t))) ++ concat (map fst (skipn k (gl t)))) by (rewrite <- concat_app, <- map_app, firstn_skipn; symmetry; apply (it_concat It t H)).
  pose proof H as H'. rewrite E in H'. apply okt_app in H' as [Ha Hb].
  split; [exact E|]. split; [apply (it_cut It t k H)|]. split; [apply (it_rest It t k H)|]. split; [reflexivity|]. split; [reflexivity|]. split; [exact Ha|]. split; [exact Hb|].
  unfold cells. rewrite (it_cut It t k H), (it_rest It t k H), <- flat_map_app, firstn_skipn. reflexivity.
Qed.
End Gl.
