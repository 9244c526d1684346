(** Key bindings as a list: which chords were bound, in order, and what typed keys stand for. *)
From Verif Require Import Base BindModel.
Open Scope N_scope.

(** group, keys, (module, id) *)
Definition entry : Type := nat * list N * (N * N).
Definition keys_eq (a b : list N) : bool := if list_eq_dec N.eq_dec a b then true else false.
Definition is_for (g : nat) (q : list N) (e : entry) : bool := (fst (fst e) =? g)%nat && keys_eq (snd (fst e)) q.
(** what is bound to the keys [q] in group [g], in the order bound *)
Definition bound_to (B : list entry) (g : nat) (q : list N) : list (N * N) := map snd (filter (is_for g q) B).
(** the beginnings of [ks], longest first *)
Fixpoint beginnings (n : nat) (ks : list N) : list (list N) := firstn n ks :: match n with O => [] | S n => beginnings n ks end.
(** what the keys [ks] resolve to, best first: module, id, and the number of keys (at least one) *)
Definition expected (B : list entry) (g : nat) (ks : list N) : list (N * N * nat) :=
  flat_map (fun q => map (fun mi => (mi, Nat.max 1 (length q))) (bound_to B g q)) (beginnings (length ks) ks).

(** a history: groups created and chords bound *)
Inductive op := OGroup (name : list N) | OBind (g : nat) (chord : list N) (m id : N).
Definition good_keys (ks : list N) : Prop := Forall (fun k => k <> 0) ks /\ (length ks <= 15)%nat.
Section History.
Variable esc : option (list N).
(** the binder, the chords bound successfully, the groups, and whether all attempts were successful; [None]: something not
    allowed (a group that does not exist) or undefined *)
Definition exec (s : binder * list entry * list nat * bool) (o : op) : option (binder * list entry * list nat * bool) :=
  let '(b, B, gr, ok) := s in
  match o with
  | OGroup name => match create_group b name with (b, Some g) => Some (b, B, g :: gr, ok) | (b, None) => Some (b, B, gr, ok) end
  | OBind g chord m id =>
    if existsb (Nat.eqb g) gr then
      match bind esc b g chord m id false with
      | None => None
      | Some (b, false) => Some (b, B, gr, false)
      | Some (b, true) => match translate esc chord with None => None | Some keys => Some (b, B ++ [(g, keys, (m, id))], gr, ok) end
      end
    else None
  end.
Definition good_op (o : op) : Prop := match o with OGroup _ => True | OBind _ chord _ _ => match translate esc chord with None => True | Some keys => good_keys keys end end.
Fixpoint execs (s : binder * list entry * list nat * bool) (h : list op) : option (binder * list entry * list nat * bool) :=
  match h with [] => Some s | o :: h => match exec s o with None => None | Some s => execs s h end end.
Definition history (h : list op) := execs (binder0, [], [1%nat], true) h.
End History.

(** typing: each key is stepped until a step says that it is time to resolve *)
Fixpoint typed (b : binder) (r : resolver) (ks : list N) : option (resolver * bool) :=
  match ks with
  | [] => Some (r, false)
  | k :: ks => match step b r k with None => None | Some (r, true) => match ks with [] => Some (r, true) | _ => None end | Some (r, false) => typed b r ks end
  end.
(** calling next until it returns nothing, each time passing the binding on, gives these *)
Inductive yields (b : binder) : resolver -> list (N * N * nat) -> Prop :=
| y_none r r' : next b r = Some (r', None) -> r' = reset r -> yields b r []
| y_one r r' bd m l : next b r = Some (r', Some bd) -> nth_error (b_modules b) (bd_module bd) = Some m -> yields b r' l -> yields b r ((m, bd_id bd, bd_len bd) :: l).

(** resolving in group [g] from the beginning *)
Definition fresh (g : nat) : resolver := mkR g g false 0 params0 0 0 false [].
(** line_editor_impl.cpp 973-1014: each binding found is offered to its module, which answers with the group to go on with and
    whether it passes; what was offered: module, id and chord *)
Fixpoint session (b : binder) (r : resolver) (answers : list (nat * bool)) : option (list (N * N * list N)) :=
  match answers with
  | [] => Some []
  | (g, pass) :: answers =>
    match next b r with
    | None => None
    | Some (_, None) => Some []
    | Some (r', Some bd) =>
      match nth_error (b_modules b) (bd_module bd) with
      | None => None
      | Some m =>
        let r1 := set_group b r' g in
        match session b (if pass then r1 else claim r1 bd) answers with
        | None => None
        | Some l => Some ((m, bd_id bd, chord_of r' bd) :: l)
        end
      end
    end
  end.
(** what should be offered: [ks] are the keys not yet claimed, [L] what is left to be offered for them *)
Fixpoint told (B : list entry) (g : nat) (ks : list N) (L : list (N * N * nat)) (answers : list (nat * bool)) : list (N * N * list N) :=
  match answers, L with
  | (g', pass) :: answers, (m, id, len) :: L' =>
    let rest := if pass then ks else skipn len ks in
    (m, id, firstn len ks) :: told B g' rest (if pass && (g' =? g)%nat then L' else match rest with [] => [] | _ => expected B g' rest end) answers
  | _, _ => []
  end.
(** the chords that were claimed *)
Fixpoint claimed (answers : list (nat * bool)) (l : list (N * N * list N)) : list (list N) :=
  match answers, l with
  | (_, pass) :: answers, (_, _, c) :: l => if pass then claimed answers l else c :: claimed answers l
  | _, _ => []
  end.
