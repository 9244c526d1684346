(** C117: unbinding a key sequence takes it, and nothing else, from the listing of key bindings. *)
From Verif Require Import Base KtModel KuModel KtProperties.
Local Open Scope N_scope.

Section S.
Context {B : Type} (lowercase macro hidden : B -> bool) (null_function : B).
Hypothesis lowercase_hidden : forall b, lowercase b = true -> hidden b = true.
Hypothesis null_hidden : hidden null_function = true.
Notation bytes := (Forall (fun k => k < 256)).
Notation seen ks e := (visible hidden (find ks e)).

Lemma find_collapse : forall any kids ks, bytes ks -> find ks (collapse macro any kids) = find ks (Map any kids).
Proof.
  intros any kids ks F. unfold collapse. destruct (empty_keymap kids) eqn:E; [|reflexivity].
  assert (N : forall k r, bytes (k :: r) -> find r (kids k) = None).
  { intros k r G. inversion G as [|k' r' G1 G2]; subst. unfold empty_keymap in E. rewrite forallb_forall in E. specialize (E k (proj2 (in_bytes k) G1)).
    destruct (kids k); [apply find_null | discriminate | discriminate]. }
  destruct any as [c|]; [destruct (macro c); [reflexivity|]|]; (destruct ks as [|k r]; [reflexivity|]; cbn [find]; rewrite (N k r F); reflexivity).
Qed.
Lemma seen_open : forall e ks, seen ks (Map (fst (open_map lowercase e)) (snd (open_map lowercase e))) = seen ks e.
Proof.
  intros [|c|any kids] [|k r]; cbn [open_map fst snd find]; try reflexivity; try (rewrite find_null; reflexivity).
  destruct (lowercase c) eqn:L; [|reflexivity]. cbn [visible]. rewrite (lowercase_hidden c L). reflexivity.
Qed.
Lemma seen_update : forall any kids k r (new : entry B), (forall ks', bytes ks' -> seen ks' new = if keys_eq ks' r then None else seen ks' (kids k)) ->
  forall ks', bytes ks' -> seen ks' (Map any (update kids k new)) = if keys_eq ks' (k :: r) then None else seen ks' (Map any kids).
Proof.
  intros any kids k r new H [|k' r'] F.
  - destruct (keys_eq [] (k :: r)) as [X | X]; [discriminate | reflexivity].
  - inversion F as [|k1 r1 F1 F2]; subst. cbn [find]. unfold update. destruct (k' =? k) eqn:E.
    + apply N.eqb_eq in E. subst k'. rewrite (H r' F2). destruct (keys_eq r' r) as [X | X]; destruct (keys_eq (k :: r') (k :: r)) as [Y | Y]; try reflexivity; exfalso; [apply Y; f_equal; exact X | apply X; injection Y as Y; exact Y].
    + destruct (keys_eq (k' :: r') (k :: r)) as [Y | Y]; [|reflexivity]. exfalso. injection Y as Y _. apply N.eqb_neq in E. exact (E Y).
Qed.
Lemma seen_unbind_in : forall ks e ks', bytes ks' -> seen ks' (unbind_in lowercase macro null_function ks e) = if keys_eq ks' ks then None else seen ks' e.
Proof.
  induction ks as [|k r IH]; intros e ks' F.
  - cbn [unbind_in]. destruct ks' as [|k' r']; destruct e; cbn [unset find]; destruct (keys_eq _ _) as [X | X]; try discriminate X; try (exfalso; apply X; reflexivity); try reflexivity.
    cbn [visible]. rewrite null_hidden. reflexivity.
  - cbn [unbind_in]. set (m := open_map lowercase e). set (kids := update (snd m) k (unbind_in lowercase macro null_function r (snd m k))).
    transitivity (seen ks' (Map (fst m) kids)).
    + destruct r as [|k2 r2]; [|reflexivity]. destruct (snd m k); [rewrite find_collapse by exact F; reflexivity | rewrite find_collapse by exact F; reflexivity | reflexivity].
    + subst kids. rewrite (seen_update (fst m) (snd m) k r) by (auto; intros; apply IH; assumption). subst m. rewrite seen_open. reflexivity.
Qed.
Lemma seen_unbind : forall ks e ks', ks <> [] -> bytes ks' -> seen ks' (unbind lowercase macro null_function ks e) = if keys_eq ks' ks then None else seen ks' e.
Proof.
  intros [|k r] e ks' N F; [exfalso; apply N; reflexivity|]. cbn [unbind]. rewrite (seen_update _ _ k r) by (auto; intros; apply seen_unbind_in; assumption). rewrite seen_open. reflexivity.
Qed.
End S.

(** C117: unbinding a key sequence takes it from the listing and changes nothing listed for other sequences. *)
Theorem unbinding_removes_one : forall (B : Type) (lowercase macro hidden : B -> bool) (null_function : B),
  (forall b, lowercase b = true -> hidden b = true) -> hidden null_function = true ->
  forall (e : entry B) ks, ks <> [] -> forall ks' c,
  In (ks', c) (listing hidden (unbind lowercase macro null_function ks e)) <-> ks' <> ks /\ In (ks', c) (listing hidden e).
Proof.
  intros B lowercase macro hidden nf LH NH e ks N ks' c. unfold listing. rewrite !in_collect. cbn [app]. split.
  - intros (r & -> & F & X). rewrite (seen_unbind lowercase macro hidden nf LH NH) in X by assumption. destruct (keys_eq r ks) as [Y | Y]; [discriminate|].
    split; [exact Y|]. exists r. split; [reflexivity | split; assumption].
  - intros [Y (r & -> & F & X)]. exists r. split; [reflexivity|]. split; [exact F|]. rewrite (seen_unbind lowercase macro hidden nf LH NH) by assumption.
    destruct (keys_eq r ks) as [Z | Z]; [exfalso; exact (Y Z) | exact X].
Qed.
Print Assumptions unbinding_removes_one.

(** What the last line about a key sequence says, if there is one. *)
Fixpoint last_change {B : Type} (ks : list N) (cs : list (list N * option B)) (before : option B) : option B :=
  match cs with
  | [] => before
  | (ks', o) :: r => last_change ks r (if keys_eq ks ks' then o else before)
  end.

(** C117: after any bindings and unbindings, each key sequence that is bound is listed once, with what was bound to it
    last; no other is listed. *)
Theorem last_change_listed : forall (B : Type) (lowercase macro hidden : B -> bool) (null_function : B),
  (forall b, lowercase b = true -> hidden b = true) -> hidden null_function = true ->
  forall cs : list (list N * option B), (forall ks o, In (ks, o) cs -> ks <> [] /\ Forall (fun k => k < 256) ks /\ forall b, o = Some b -> hidden b = false) ->
  let l := listing hidden (change_all lowercase macro null_function cs bare) in
  NoDup (map fst l) /\ forall ks b, In (ks, b) l <-> last_change ks cs None = Some b.
Proof.
  intros B lowercase macro hidden nf LH NH cs H l. split; [apply collect_nodup|]. subst l.
  assert (G : forall cs e, (forall ks o, In (ks, o) cs -> ks <> [] /\ Forall (fun k => k < 256) ks /\ forall b, o = Some b -> hidden b = false) -> forall before ks b,
    (forall c, In (ks, c) (listing hidden e) <-> before = Some c) -> (In (ks, b) (listing hidden (change_all lowercase macro nf cs e)) <-> last_change ks cs before = Some b)).
  { clear cs H. induction cs as [|[k o] cs IH]; intros e H before ks b O; [apply O|]. cbn [last_change]. unfold change_all. cbn [fold_left]. fold (change_all lowercase macro nf cs (change lowercase macro nf e (k, o))).
    destruct (H k o (or_introl eq_refl)) as (H1 & H2 & H3). apply IH; [intros k' o' X; apply (H k' o'); right; exact X|].
    intros d. unfold change. cbn [fst snd]. destruct o as [c|].
    - rewrite (binding_changes_one B lowercase hidden LH e k c H2 (H3 c eq_refl)). destruct (keys_eq ks k) as [Y | Y].
      + split; [intros [[_ ->] | [X _]]; [reflexivity | exfalso; exact (X Y)] | intros X; injection X as ->; left; split; [exact Y | reflexivity]].
      + rewrite O. split; [intros [[X _] | [_ X]]; [exfalso; exact (Y X) | exact X] | intros X; right; split; assumption].
    - rewrite (unbinding_removes_one B lowercase macro hidden nf LH NH e k H1). destruct (keys_eq ks k) as [Y | Y].
      + split; [intros [X _]; exfalso; exact (X Y) | discriminate].
      + rewrite O. split; [intros [_ X]; exact X | intros X; split; assumption]. }
  intros ks b. apply G; [exact H|]. intros c. split; [|discriminate]. unfold listing. rewrite in_collect. intros (r & _ & _ & X).
  destruct r as [|k r]; [discriminate|]. cbn [bare find] in X. rewrite find_null in X. discriminate.
Qed.
Print Assumptions last_change_listed.

(** 0 is the null function, 1 a lowercase version; from 100 on they are macros. *)
Example some_changes : listing (fun n => n <? 2) (change_all (fun n => n =? 1) (fun n => 100 <=? n) 0
   [([97], Some 5); ([97; 98; 99], Some 6); ([24; 117], Some 7); ([120], Some 100); ([97; 98; 99], None); ([24], Some 8); ([24], None); ([120; 121], Some 9); ([120; 121], None)] bare) =
  [([24; 117], 7); ([97], 5); ([120], 100)].
Proof. vm_compute. reflexivity. Qed.
Example some_collapse : match change_all (fun n => n =? 1) (fun n => 100 <=? n) 0 [([97], Some 5); ([97; 98], Some 6); ([97; 98], None)] bare with Map _ kids => kids 97 | e => e end = Leaf 5.
Proof. vm_compute. reflexivity. Qed.
Example some_removed : ~ In ([97], 5) (listing (fun n => n <? 2) (unbind (fun n => n =? 1) (fun n => 100 <=? n) 0 [97] (bind (fun n => n =? 1) [97; 98] 6 (bind (fun n => n =? 1) [97] 5 bare)))) /\
  In ([97; 98], 6) (listing (fun n => n <? 2) (unbind (fun n => n =? 1) (fun n => 100 <=? n) 0 [97] (bind (fun n => n =? 1) [97; 98] 6 (bind (fun n => n =? 1) [97] 5 bare)))).
Proof. vm_compute. split; [intros [X | []]; discriminate X | left; reflexivity]. Qed.
