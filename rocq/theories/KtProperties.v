(** C116: the listing of key bindings has what was bound last to each key sequence, once. *)
From Coq Require Import FinFun.
From Verif Require Import Base KtModel.
Local Open Scope N_scope.

Section S.
Context {B : Type} (lowercase hidden : B -> bool).
Hypothesis lowercase_hidden : forall b, lowercase b = true -> hidden b = true.

Fixpoint find (ks : list N) (e : entry B) : option B :=
  match ks with
  | [] => match e with Null => None | Leaf b => Some b | Map any _ => any end
  | k :: r => match e with Map _ kids => find r (kids k) | _ => None end
  end.
Definition visible (o : option B) : option B := match o with Some b => if hidden b then None else Some b | None => None end.
Definition keys_eq : forall a b : list N, {a = b} + {a <> b} := list_eq_dec N.eq_dec.

Lemma find_null : forall ks, find ks Null = None.
Proof. intros [|k ks]; reflexivity. Qed.
Lemma find_bind : forall ks b ks' e, visible (find ks' (bind lowercase ks b e)) = if keys_eq ks' ks then visible (Some b) else visible (find ks' e).
Proof.
  induction ks as [|k ks IH]; intros b ks' e.
  - cbn [bind]. destruct ks' as [|k' ks']; destruct e; destruct (keys_eq _ _) as [X | X]; try discriminate X; try (exfalso; apply X; reflexivity); reflexivity.
  - assert (U : forall kids r' k', visible (find r' (update kids k (bind lowercase ks b (kids k)) k')) = if keys_eq (k' :: r') (k :: ks) then visible (Some b) else visible (find r' (kids k'))).
    { intros kids r' k'. unfold update. destruct (k' =? k) eqn:E.
      - apply N.eqb_eq in E. subst k'. rewrite IH. destruct (keys_eq r' ks) as [X | X]; destruct (keys_eq (k :: r') (k :: ks)) as [Y | Y]; try reflexivity; exfalso; [apply Y; f_equal; exact X | apply X; injection Y as Y; exact Y].
      - destruct (keys_eq (k' :: r') (k :: ks)) as [Y | Y]; [|reflexivity]. exfalso. injection Y as Y _. apply N.eqb_neq in E. exact (E Y). }
    destruct ks' as [|k' r'].
    + destruct (keys_eq [] (k :: ks)) as [X | X]; [discriminate|]. destruct e as [|c|any kids]; cbn [bind find]; try reflexivity.
      destruct (lowercase c) eqn:L; [|reflexivity]. cbn [visible]. rewrite (lowercase_hidden c L). reflexivity.
    + destruct e as [|c|any kids]; cbn [bind find].
      * rewrite (U (fun _ => Null)). rewrite find_null. reflexivity.
      * rewrite (U (fun _ => Null)). rewrite find_null. reflexivity.
      * apply U.
Qed.
Lemma in_bytes : forall i, In i all_bytes <-> i < 256.
Proof.
  intros i. unfold all_bytes. rewrite in_map_iff. split.
  - intros (n & <- & H). apply in_seq in H. lia.
  - intros H. exists (N.to_nat i). split; [apply N2Nat.id|]. apply in_seq. lia.
Qed.
Lemma in_one : forall p x b l, In (p, x) (list_one hidden l b) <-> p = l /\ visible (Some b) = Some x.
Proof.
  intros p x b l. unfold list_one, visible. destruct (hidden b); cbn [In]; [split; [tauto | intros [_ X]; discriminate]|].
  split; [intros [X | []]; injection X as -> ->; split; reflexivity | intros [-> X]; injection X as ->; left; reflexivity].
Qed.
Lemma in_collect : forall e p ks b, In (ks, b) (collect hidden p e) <-> exists r, ks = p ++ r /\ Forall (fun k => k < 256) r /\ visible (find r e) = Some b.
Proof.
  induction e as [|c|any kids IH]; intros p ks b; cbn [collect].
  - split; [intros [] | intros (r & _ & _ & X)]. rewrite find_null in X. discriminate.
  - rewrite in_one. split.
    + intros [-> X]. exists []. split; [rewrite app_nil_r; reflexivity|]. split; [constructor | exact X].
    + intros ([|k r] & -> & _ & X); [rewrite app_nil_r; split; [reflexivity | exact X] | discriminate].
  - rewrite in_app_iff, in_flat_map. split.
    + intros [(i & I & X) | X].
      * apply in_bytes in I. apply IH in X. destruct X as (r & -> & F & X). exists (i :: r). split; [rewrite <- app_assoc; reflexivity|]. split; [constructor; assumption | exact X].
      * destruct any as [a|]; [|destruct X]. apply in_one in X. destruct X as [-> X]. exists []. split; [rewrite app_nil_r; reflexivity|]. split; [constructor | exact X].
    + intros ([|k r] & -> & F & X).
      * right. cbn [find] in X. destruct any as [a|]; [|discriminate]. apply in_one. split; [apply app_nil_r | exact X].
      * left. inversion F as [|k' r' F1 F2]; subst. exists k. split; [apply in_bytes, F1|]. apply IH. exists r. split; [rewrite <- app_assoc; reflexivity|]. split; assumption.
Qed.
Lemma nodup_app : forall (A : Type) (a b : list A), NoDup a -> NoDup b -> (forall x, In x a -> In x b -> False) -> NoDup (a ++ b).
Proof.
  intros A a b Ha Hb H. induction Ha as [|x a N Ha IH]; [exact Hb|]. cbn [app]. constructor.
  - rewrite in_app_iff. intros [X | X]; [exact (N X) | apply (H x); [left; reflexivity | exact X]].
  - apply IH. intros y Y. apply H. right. exact Y.
Qed.
Lemma collect_prefix : forall e p ks b, In (ks, b) (collect hidden p e) -> exists r, ks = p ++ r.
Proof. intros e p ks b H. apply in_collect in H. destruct H as (r & -> & _). exists r. reflexivity. Qed.
Lemma collect_nodup : forall e p, NoDup (map fst (collect hidden p e)).
Proof.
  assert (O : forall p b, NoDup (map fst (list_one hidden p b))).
  { intros p b. unfold list_one. destruct (hidden b); [constructor|]. constructor; [intros [] | constructor]. }
  induction e as [|c|any kids IH]; intros p; cbn [collect]; [constructor | apply O|]. rewrite map_app. apply nodup_app.
  - assert (D : NoDup all_bytes) by (unfold all_bytes; apply FinFun.Injective_map_NoDup; [intros x y; apply Nat2N.inj | apply seq_NoDup]).
    induction D as [|i l I D IHl]; [constructor|]. cbn [flat_map]. rewrite map_app. apply nodup_app; [apply IH | exact IHl|].
    intros ks X Y. apply in_map_iff in X. destruct X as ([ks1 b1] & <- & X). apply in_map_iff in Y. destruct Y as ([ks2 b2] & E & Y). cbn [fst] in *. subst ks2.
    apply in_flat_map in Y. destruct Y as (j & J & Y). apply collect_prefix in X. destruct X as (r & X). apply collect_prefix in Y. destruct Y as (r' & Y).
    rewrite X in Y. rewrite <- !app_assoc in Y. apply app_inv_head in Y. injection Y as Y _. subst j. exact (I J).
  - destruct any as [a|]; [apply O | constructor].
  - intros ks X Y. apply in_map_iff in X. destruct X as ([ks1 b1] & <- & X). apply in_map_iff in Y. destruct Y as ([ks2 b2] & E & Y). cbn [fst] in *. subst ks2.
    apply in_flat_map in X. destruct X as (i & _ & X). apply collect_prefix in X. destruct X as (r & X). destruct any as [a|]; [|destruct Y].
    apply in_one in Y. destruct Y as [Y _]. rewrite Y in X. rewrite <- app_assoc in X. rewrite <- (app_nil_r p) in X at 1. apply app_inv_head in X. discriminate.
Qed.
End S.

(** What was bound last to a key sequence, if anything. *)
Fixpoint last_bound {B : Type} (ks : list N) (bs : list (list N * B)) (before : option B) : option B :=
  match bs with
  | [] => before
  | (ks', b) :: r => last_bound ks r (if keys_eq ks ks' then Some b else before)
  end.
Definition listing {B : Type} (hidden : B -> bool) (e : entry B) : list (list N * B) := collect hidden [] e.

(** C116: binding a key sequence changes what is listed for it, and for no other, even if one is the beginning of
    another. *)
Theorem binding_changes_one : forall (B : Type) (lowercase hidden : B -> bool), (forall b, lowercase b = true -> hidden b = true) ->
  forall (e : entry B) ks b, Forall (fun k => k < 256) ks -> hidden b = false ->
  forall ks' c, In (ks', c) (listing hidden (bind lowercase ks b e)) <-> (ks' = ks /\ c = b) \/ (ks' <> ks /\ In (ks', c) (listing hidden e)).
Proof.
  intros B lowercase hidden LH e ks b F H ks' c. unfold listing. rewrite !in_collect. cbn [app]. split.
  - intros (r & -> & F' & X). rewrite (find_bind lowercase hidden LH) in X. destruct (keys_eq r ks) as [Y | Y].
    + left. split; [exact Y|]. cbn [visible] in X. rewrite H in X. injection X as ->. reflexivity.
    + right. split; [exact Y|]. exists r. split; [reflexivity | split; assumption].
  - intros [[-> ->] | [N (r & -> & F' & X)]].
    + exists ks. split; [reflexivity|]. split; [exact F|]. rewrite (find_bind lowercase hidden LH). destruct (keys_eq ks ks) as [Y | Y]; [|exfalso; apply Y; reflexivity]. cbn [visible]. rewrite H. reflexivity.
    + exists r. split; [reflexivity|]. split; [exact F'|]. rewrite (find_bind lowercase hidden LH). destruct (keys_eq r ks) as [Y | Y]; [exfalso; exact (N Y) | exact X].
Qed.
Print Assumptions binding_changes_one.

Lemma last_bound_some : forall (B : Type) (bs : list (list N * B)) ks (P : B -> Prop) o, (forall ks b, In (ks, b) bs -> P b) -> match o with Some b => P b | None => True end ->
  match last_bound ks bs o with Some b => P b | None => True end.
Proof.
  induction bs as [|[k b] bs IH]; intros ks P o H O; [exact O|]. cbn [last_bound]. apply IH; [intros k' b' X; apply (H k' b'); right; exact X|].
  destruct (keys_eq ks k); [apply (H k b); left; reflexivity | exact O].
Qed.
(** C116: after any bindings each key sequence is listed with what was bound to it last, and listed once. *)
Theorem last_binding_listed : forall (B : Type) (lowercase hidden : B -> bool), (forall b, lowercase b = true -> hidden b = true) ->
  forall (bs : list (list N * B)), (forall ks b, In (ks, b) bs -> Forall (fun k => k < 256) ks /\ hidden b = false) ->
  let l := listing hidden (bind_all lowercase bs Null) in
  NoDup (map fst l) /\ forall ks b, In (ks, b) l <-> last_bound ks bs None = Some b.
Proof.
  intros B lowercase hidden LH bs H l. split; [apply collect_nodup|]. subst l.
  assert (G : forall bs e, (forall ks b, In (ks, b) bs -> Forall (fun k => k < 256) ks /\ hidden b = false) -> forall o ks b,
    (forall c, In (ks, c) (listing hidden e) <-> o = Some c) -> (In (ks, b) (listing hidden (bind_all lowercase bs e)) <-> last_bound ks bs o = Some b)).
  { clear bs H. induction bs as [|[k c] bs IH]; intros e H o ks b O; [apply O|]. cbn [bind_all fold_left last_bound fst snd]. fold (bind_all lowercase bs (bind lowercase k c e)).
    destruct (H k c (or_introl eq_refl)) as [H1 H2]. apply IH; [intros k' c' X; apply (H k' c'); right; exact X|].
    intros d. rewrite (binding_changes_one B lowercase hidden LH e k c H1 H2). destruct (keys_eq ks k) as [Y | Y].
    - split; [intros [[_ ->] | [X _]]; [reflexivity | exfalso; exact (X Y)] | intros X; injection X as ->; left; split; [exact Y | reflexivity]].
    - rewrite O. split; [intros [[X _] | [_ X]]; [exfalso; exact (Y X) | exact X] | intros X; right; split; assumption]. }
  intros ks b. apply G; [exact H|]. intros c. split; [intros [] | discriminate].
Qed.
Print Assumptions last_binding_listed.

Example some_bindings : listing (fun n => n =? 0) (bind_all (fun n => n =? 0) [([97], 1); ([97; 98; 99], 2); ([24; 117], 3); ([97; 98], 4); ([97], 5)] Null) =
  [([24; 117], 3); ([97; 98; 99], 2); ([97; 98], 4); ([97], 5)].
Proof. vm_compute. reflexivity. Qed.
Example some_last : last_bound [97] [([97], 1); ([97; 98; 99], 2); ([24; 117], 3); ([97; 98], 4); ([97], 5)] None = Some 5.
Proof. reflexivity. Qed.
(** Binding below a lowercase version: the others stay listed. *)
Example some_one : In ([65; 66], 7) (listing (fun n => n =? 0) (bind (fun n => n =? 0) [65; 66] 7 (Map None (fun i => if i =? 65 then Leaf 0 else if i =? 24 then Leaf 9 else Null)))) /\
  In ([24], 9) (listing (fun n => n =? 0) (bind (fun n => n =? 0) [65; 66] 7 (Map None (fun i => if i =? 65 then Leaf 0 else if i =? 24 then Leaf 9 else Null)))).
Proof. split; vm_compute; tauto. Qed.
