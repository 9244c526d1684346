(** C112: listings of key bindings are shown page by page. *)
From Verif Require Import Base PgModel.

(** The whole of the listing. *)
Definition listing (ws ls : list entry) : list entry := match ws with [] => ls | _ => blank :: ws ++ blank :: ls end.
(** The entries shown in a run. *)
Definition shown (t : list event) : list entry := flat_map (fun v => match v with Shown e => [e] | More => [] end) t.
(** What is shown between two questions. *)
Fixpoint screens (t : list event) : list (list entry) :=
  match t with
  | [] => [[]]
  | More :: r => [] :: screens r
  | Shown e :: r => match screens r with s :: ss => (e :: s) :: ss | [] => [[e]] end
  end.
Definition rows_of (s : list entry) : Z := fold_right (fun e n => (snd e + n)%Z) 0%Z s.
Definition trace (rows : Z) (ks : list key) (ws ls : list entry) : list event := fst (show_key_bindings rows ks ws ls).

Lemma entries_app : forall a b p, print_entries p (a ++ b) = andthen (print_entries p a) (fun p' => print_entries p' b).
Proof.
  induction a as [|e a IH]; intros b p.
  - cbn [app print_entries andthen]. destruct (print_entries p b). reflexivity.
  - cbn [app print_entries]. destruct (on_print_lines p (snd e)) as [asked [p' | | ]]; [|reflexivity|reflexivity].
    rewrite IH. destruct (print_entries p' a) as [t [p2 | | ]]; cbn [andthen]; [|reflexivity|reflexivity].
    destruct (print_entries p2 b) as [t' z]. rewrite <- app_assoc. reflexivity.
Qed.
Lemma andthen_assoc : forall x f g, andthen (andthen x f) g = andthen x (fun p => andthen (f p) g).
Proof.
  intros [t [p | | ]] f g; cbn [andthen]; [|reflexivity|reflexivity].
  destruct (f p) as [t1 [p1 | | ]]; cbn [andthen]; [|reflexivity|reflexivity]. destruct (g p1) as [t2 z]. rewrite app_assoc. reflexivity.
Qed.
Lemma andthen_ext : forall x f g, (forall p, f p = g p) -> andthen x f = andthen x g.
Proof. intros [t [p | | ]] f g H; cbn [andthen]; [rewrite H|..]; reflexivity. Qed.
Lemma show_listing : forall rows ks ws ls, show_key_bindings rows ks ws ls = print_entries (start_pager rows ks) (listing ws ls).
Proof.
  intros rows ks ws ls. unfold show_key_bindings, print_warnings, listing. destruct ws as [|w ws].
  - cbn [andthen]. destruct (print_entries _ ls). reflexivity.
  - set (p := start_pager rows ks). change (blank :: (w :: ws) ++ blank :: ls) with ([blank] ++ (w :: ws) ++ [blank] ++ ls).
    rewrite entries_app, andthen_assoc. apply andthen_ext. intros p1.
    rewrite entries_app, andthen_assoc. apply andthen_ext. intros p2. symmetry. apply entries_app.
Qed.

Lemma shown_more : forall (asked : bool) t, shown ((if asked then [More] else []) ++ t) = shown t.
Proof. intros [|] t; reflexivity. Qed.
Lemma entries_prefix : forall es p t z, print_entries p es = (t, z) ->
  exists rest, es = shown t ++ rest /\ match z with Go _ => rest = [] | _ => rest <> [] end.
Proof.
  induction es as [|e es IH]; intros p t z H; cbn [print_entries] in H.
  - injection H as <- <-. exists []. split; reflexivity.
  - destruct (on_print_lines p (snd e)) as [asked [p' | | ]].
    + destruct (print_entries p' es) as [t' z'] eqn:E. injection H as <- <-. destruct (IH _ _ _ E) as (rest & R1 & R2). exists rest.
      rewrite shown_more. cbn [shown flat_map app]. split; [f_equal; exact R1 | exact R2].
    + injection H as <- <-. exists (e :: es). destruct asked; (split; [reflexivity | discriminate]).
    + injection H as <- <-. exists (e :: es). destruct asked; (split; [reflexivity | discriminate]).
Qed.
Lemma dispatch_end : forall ks rows p s, dispatch rows 0 ks = Some (p, s) ->
  (forall k, In k (p_keys p) -> In k ks) /\ (s = true -> In Break ks) /\ ((p_max p < 0)%Z -> In Stop ks).
Proof.
  induction ks as [|k ks IH]; intros rows p s H; [discriminate|].
  destruct k; cbn [dispatch] in H; try (injection H as <- <-; cbn [p_keys p_max In]; split; [tauto | split; [tauto || discriminate | try tauto; unfold set_limit; lia]]).
  - destruct (IH _ _ _ H) as (A & B & C). cbn [In]. split; [intros k K; right; apply A, K | split; intros K; right; [apply B | apply C]; exact K].
  - destruct (IH _ _ _ H) as (A & B & C). cbn [In]. split; [intros k K; right; apply A, K | split; intros K; right; [apply B | apply C]; exact K].
Qed.
Lemma entries_end : forall es p t z, print_entries p es = (t, z) -> (0 <= p_max p)%Z ->
  match z with Go _ => True | Halt => (In Stop (p_keys p) \/ In Break (p_keys p)) /\ exists t', t = t' ++ [More] | Wait => exists t', t = t' ++ [More] end.
Proof.
  induction es as [|e es IH]; intros p t z H P; cbn [print_entries] in H; [injection H as <- <-; exact I|].
  destruct (on_print_lines p (snd e)) as [asked a] eqn:O. unfold on_print_lines in O. cbv zeta in O.
  assert (P0 : (p_max p <? 0)%Z = false) by lia. rewrite P0 in O.
  assert (N : a <> Halt -> match a with Go p' => (0 <= p_max p')%Z /\ (forall k, In k (p_keys p') -> In k (p_keys p)) | _ => True end).
  { destruct (p_max p =? 0)%Z; [injection O as <- <-; intros _; split; [exact P | tauto]|].
    destruct (0 <? p_max p - snd e)%Z eqn:M; [injection O as <- <-; intros _; cbn [p_max p_keys]; split; [lia | tauto]|]. injection O as <- <-.
    destruct (dispatch (p_rows p) 0 (p_keys p)) as [[p' s]|] eqn:D; [|intros _; exact I]. destruct s; [intros X; exact I|].
    destruct (0 <=? p_max p')%Z eqn:Q; intros X; [|exact I]. split; [lia | exact (proj1 (dispatch_end _ _ _ _ D))]. }
  assert (A : match a with Go _ => True | Halt => asked = true /\ (In Stop (p_keys p) \/ In Break (p_keys p)) | Wait => asked = true end).
  { destruct (p_max p =? 0)%Z; [injection O as <- <-; exact I|].
    destruct (0 <? p_max p - snd e)%Z eqn:M; [injection O as <- <-; exact I|]. injection O as <- <-.
    destruct (dispatch (p_rows p) 0 (p_keys p)) as [[p' s]|] eqn:D; [|reflexivity]. destruct (dispatch_end _ _ _ _ D) as (_ & B & C).
    destruct s; [split; [reflexivity | right; apply B; reflexivity]|]. destruct (0 <=? p_max p')%Z eqn:Q; [exact I|]. split; [reflexivity | left; apply C; lia]. }
  destruct a as [p' | | ].
  - destruct (print_entries p' es) as [t' z'] eqn:E. injection H as <- <-. destruct N as [N1 N2]; [discriminate|]. specialize (IH _ _ _ E N1).
    destruct z'; [exact I|..].
    + destruct IH as [[X | X] [t2 ->]]; (split; [auto | exists ((if asked then [More] else []) ++ Shown e :: t2); rewrite <- app_assoc; reflexivity]).
    + destruct IH as [t2 ->]. exists ((if asked then [More] else []) ++ Shown e :: t2). rewrite <- app_assoc. reflexivity.
  - injection H as <- <-. destruct A as [-> A]. split; [exact A | exists []; reflexivity].
  - injection H as <- <-. rewrite A. exists []. reflexivity.
Qed.

(** C112: entries are shown in order, none is skipped; the rest is left out only after the user said so or while the
    pager waits, and then the question is the last thing printed. *)
Theorem shown_in_order : forall rows ks ws ls t z, show_key_bindings rows ks ws ls = (t, z) ->
  (exists rest, listing ws ls = shown t ++ rest) /\
  (z = Halt -> (In Stop ks \/ In Break ks) /\ shown t <> listing ws ls) /\
  (z <> Halt -> z <> Wait -> shown t = listing ws ls) /\
  (shown t <> listing ws ls -> exists t', t = t' ++ [More]).
Proof.
  intros rows ks ws ls t z H. rewrite show_listing in H. destruct (entries_prefix _ _ _ _ H) as (rest & R1 & R2).
  pose proof (entries_end _ _ _ _ H) as E. cbn [start_pager p_max p_keys set_limit] in E. specialize (E ltac:(lia)).
  assert (F : rest <> [] -> shown t <> listing ws ls).
  { intros X Y. rewrite Y in R1. apply X. rewrite <- (app_nil_r (listing ws ls)) in R1 at 1. apply app_inv_head in R1. symmetry. exact R1. }
  split; [exists rest; exact R1|]. destruct z as [p | | ].
  - subst rest. rewrite app_nil_r in R1. split; [discriminate|]. split; [intros _ _; symmetry; exact R1 | intros X; exfalso; apply X; symmetry; exact R1].
  - split; [intros _; split; [apply E | apply F, R2]|]. split; [intros X; exfalso; apply X; reflexivity | intros _; apply E].
  - split; [discriminate|]. split; [intros _ X; exfalso; apply X; reflexivity | intros _; apply E].
Qed.
Print Assumptions shown_in_order.

Lemma entries_asked : forall es p a b, fst (print_entries p es) = a ++ More :: b -> exists e rest, es = shown a ++ e :: rest.
Proof.
  induction es as [|e es IH]; intros p a b H; cbn [print_entries] in H; [destruct a; discriminate|].
  destruct (on_print_lines p (snd e)) as [asked x] eqn:O.
  destruct a as [|v a]; [exists e, es; reflexivity|].
  destruct x as [p' | | ]; [|destruct asked; cbn in H; [destruct a; discriminate | discriminate] ..].
  destruct (print_entries p' es) as [t z] eqn:E. cbn [fst] in H.
  assert (T : forall a', t = a' ++ More :: b -> exists e0 rest, e :: es = (e :: shown a') ++ e0 :: rest).
  { intros a' T. destruct (IH p' a' b) as (e0 & rest & R); [rewrite E; exact T|]. exists e0, rest. cbn [app]. f_equal. exact R. }
  destruct asked; cbn [app] in H.
  - injection H as <- H. destruct a as [|v a]; [exists e, es; reflexivity|]. cbn [app] in H. injection H as <- H. cbn [shown flat_map app]. apply T, H.
  - injection H as <- H. cbn [shown flat_map app]. apply T, H.
Qed.
(** C112: the pager asks only if there is more to show. *)
Theorem asks_only_for_more : forall rows ks ws ls a b, trace rows ks ws ls = a ++ More :: b ->
  exists e rest, listing ws ls = shown a ++ e :: rest.
Proof. intros rows ks ws ls a b H. unfold trace in H. rewrite show_listing in H. exact (entries_asked _ _ _ _ H). Qed.
Print Assumptions asks_only_for_more.

Definition steady (ks : list key) : Prop := forall r, ~ In (Resized r) ks.
Lemma dispatch_go : forall ks rows p s, dispatch rows 0 ks = Some (p, s) -> steady ks -> (3 <= rows)%Z ->
  s = true \/ (p_max p < 0)%Z \/ (p_rows p = rows /\ steady (p_keys p) /\ (0 < p_max p <= rows - 2)%Z).
Proof.
  induction ks as [|k ks IH]; intros rows p s H S R; [discriminate|].
  assert (S' : steady ks) by (intros r X; apply (S r); right; exact X).
  destruct k; cbn [dispatch] in H; try (apply (IH _ _ _ H S' R));
    try (injection H as <- <-; cbn [p_max p_rows p_keys set_limit]).
  - right; right. split; [reflexivity|]. split; [exact S' | lia].
  - right; right. split; [reflexivity|]. split; [exact S'|]. pose proof (Z.div_mod rows 2). pose proof (Z.mod_pos_bound rows 2). lia.
  - right; right. split; [reflexivity|]. split; [exact S' | lia].
  - right; left. lia.
  - exfalso. apply (S rows0). left. reflexivity.
  - left. reflexivity.
Qed.
Lemma screens_shown : forall e t s ss, screens t = s :: ss -> screens (Shown e :: t) = (e :: s) :: ss.
Proof. intros e t s ss H. cbn [screens]. rewrite H. reflexivity. Qed.
Lemma entries_fit : forall es p, (3 <= p_rows p)%Z -> steady (p_keys p) -> (0 < p_max p)%Z -> Forall (fun e => 0 < snd e <= 2)%Z es ->
  exists s ss, screens (fst (print_entries p es)) = s :: ss /\ (rows_of s <= p_max p - 1)%Z /\ Forall (fun s => rows_of s <= p_rows p - 1)%Z ss.
Proof.
  induction es as [|e es IH]; intros p R S M F; cbn [print_entries].
  - exists [], []. split; [reflexivity|]. split; [cbn; lia | constructor].
  - inversion F as [|e' es' F1 F2]; subst. unfold on_print_lines. cbv zeta.
    assert (M0 : (p_max p <? 0)%Z = false) by lia. assert (M1 : (p_max p =? 0)%Z = false) by lia. rewrite M0, M1.
    destruct (0 <? p_max p - snd e)%Z eqn:Q.
    + destruct (IH (mk (p_rows p) (p_max p - snd e) (p_keys p))) as (s & ss & A & B & C); cbn [p_rows p_max p_keys]; try assumption; try lia.
      destruct (print_entries _ es) as [t z]. cbn [fst app] in *. exists (e :: s), ss. rewrite (screens_shown e t s ss A).
      cbn [p_max p_rows] in B, C. split; [reflexivity|]. split; [cbn [rows_of fold_right]; fold (rows_of s); lia | exact C].
    + assert (W : exists s ss, screens [More] = s :: ss /\ (rows_of s <= p_max p - 1)%Z /\ Forall (fun s => rows_of s <= p_rows p - 1)%Z ss).
      { exists [], [[]]. split; [reflexivity|]. split; [cbn; lia|]. constructor; [cbn; lia | constructor]. }
      destruct (dispatch (p_rows p) 0 (p_keys p)) as [[p' sg]|] eqn:D; [|exact W]. destruct sg; [exact W|].
      destruct (0 <=? p_max p')%Z eqn:Q'; [|exact W].
      destruct (dispatch_go _ _ _ _ D S R) as [X | [X | (X1 & X2 & X3)]]; [discriminate | lia|].
      destruct (IH p') as (s & ss & A & B & C); [lia | exact X2 | lia | exact F2|].
      destruct (print_entries p' es) as [t z]. cbn [fst app] in *. exists [], ((e :: s) :: ss). cbn [screens]. rewrite A.
      split; [reflexivity|]. split; [cbn; lia|]. constructor; [cbn [rows_of fold_right]; fold (rows_of s); lia|]. rewrite <- X1. exact C.
Qed.
(** C112: as long as no entry takes more than two rows and the terminal has three rows at least and keeps its size,
    what is printed between two questions fits above the question; nothing scrolls away unseen. *)
Theorem nothing_scrolls_away_partial : forall rows ks ws ls, (3 <= rows)%Z -> steady ks ->
  Forall (fun e => 0 < snd e <= 2)%Z (ws ++ ls) -> Forall (fun s => rows_of s <= rows - 1)%Z (screens (trace rows ks ws ls)).
Proof.
  intros rows ks ws ls R S F. unfold trace. rewrite show_listing. apply Forall_app in F. destruct F as [F1 F2].
  destruct (entries_fit (listing ws ls) (start_pager rows ks)) as (s & ss & A & B & C); cbn [start_pager p_rows p_max p_keys set_limit]; try assumption; try lia.
  - unfold listing. destruct ws; [exact F2|]. constructor; [cbn; lia|]. apply Forall_app. split; [exact F1|]. constructor; [cbn; lia | exact F2].
  - rewrite A. constructor; [cbn [start_pager p_max set_limit] in B; lia | exact C].
Qed.
Print Assumptions nothing_scrolls_away_partial.

Definition rowsof (n : nat) : list entry := map (fun k => (k, 1%Z)) (seq 1 n).
(** Without these conditions rows are lost: an entry of three rows, a terminal of two rows, and a change of the size
    while the question is shown, which is taken as an answer and lets all the rest run through. *)
Theorem nothing_scrolls_away_refuted :
  (exists rows ks ls, (3 <= rows)%Z /\ steady ks /\ Forall (fun e => 0 < snd e <= 3)%Z ls /\ ~ Forall (fun s => rows_of s <= rows - 1)%Z (screens (trace rows ks [] ls))) /\
  (exists ks ls, steady ks /\ Forall (fun e => snd e = 1)%Z ls /\ ~ Forall (fun s => rows_of s <= 2 - 1)%Z (screens (trace 2 ks [] ls))) /\
  (exists rows ks ls, (3 <= rows)%Z /\ ks = [Resized rows] /\ Forall (fun e => snd e = 1)%Z ls /\ ~ Forall (fun s => rows_of s <= rows - 1)%Z (screens (trace rows ks [] ls))).
Proof.
  split; [|split].
  - exists 5%Z, [Page; Page], (rowsof 3 ++ (9, 3%Z) :: rowsof 3)%nat. split; [lia|]. split; [intros r [X | [X | []]]; discriminate|].
    split; [vm_compute; repeat constructor; discriminate|]. intros X. inversion X as [|? ? _ Y]; subst. inversion Y as [|? ? Z _]; subst. apply Z. vm_compute. reflexivity.
  - exists [Page], (rowsof 9). split; [intros r [X | []]; discriminate|]. split; [vm_compute; repeat constructor|].
    intros X. inversion X as [|? ? _ Y]; subst. inversion Y as [|? ? Z _]; subst. apply Z. vm_compute. reflexivity.
  - exists 5%Z, [Resized 5], (rowsof 20). split; [lia|]. split; [reflexivity|]. split; [vm_compute; repeat constructor|].
    intros X. inversion X as [|? ? _ Y]; subst. inversion Y as [|? ? Z _]; subst. apply Z. vm_compute. reflexivity.
Qed.
Print Assumptions nothing_scrolls_away_refuted.

(** The keys that answer the question. *)
Definition answers (ks : list key) : list key := filter (fun k => match k with Help | Other => false | _ => true end) ks.
(** How many more rows an answer asks for. *)
Definition wanted (rows : Z) (k : key) : option nat :=
  match k with Page => Some (Z.to_nat (rows - 2)) | Half => Some (Z.to_nat (rows / 2)) | One => Some 1%nat | _ => None end.
(** The listing cut into screens: n rows first, then as many as each answer asks for. *)
Fixpoint chop (rows : Z) (n : nat) (ks : list key) (l : list entry) : list (list entry) :=
  if (length l <=? n)%nat then [l]
  else firstn n l :: match ks with
    | k :: t => match wanted rows k with Some m => chop rows m t (skipn n l) | None => [[]] end
    | [] => [[]]
    end.
Lemma chop_cons : forall rows n ks e l s ss, chop rows n ks l = s :: ss -> chop rows (S n) ks (e :: l) = (e :: s) :: ss.
Proof.
  intros rows n ks e l s ss H. destruct ks as [|k ks]; cbn [chop length firstn skipn Nat.leb] in *; destruct (length l <=? n)%nat; injection H as <- <-; reflexivity.
Qed.
Lemma chop_some : forall rows n ks l, exists s ss, chop rows n ks l = s :: ss.
Proof. intros rows n [|k ks] l; cbn [chop]; destruct (length l <=? n)%nat; eexists; eexists; reflexivity. Qed.
Lemma dispatch_answers : forall ks rows, steady ks ->
  match answers ks with [] => dispatch rows 0 ks = None | k :: r => exists t, answers t = r /\ steady t /\ match k with Help | Other | Resized _ => False | _ => True end /\ dispatch rows 0 ks = dispatch rows 0 (k :: t) end.
Proof.
  induction ks as [|k ks IH]; intros rows S; [reflexivity|]. assert (S' : steady ks) by (intros r X; apply (S r); right; exact X).
  destruct k; cbn [answers filter]; try (exists ks; split; [reflexivity|]; split; [exact S'|]; split; [exact I || (exfalso; apply (S rows0); left; reflexivity) | reflexivity]); exact (IH rows S').
Qed.
Lemma entries_chop : forall es p n, (3 <= p_rows p)%Z -> steady (p_keys p) -> p_max p = Z.of_nat (S n) -> Forall (fun e => snd e = 1)%Z es ->
  screens (fst (print_entries p es)) = chop (p_rows p) n (answers (p_keys p)) es.
Proof.
  induction es as [|e es IH]; intros p n R St M F; cbn [print_entries].
  - destruct (answers (p_keys p)); reflexivity.
  - inversion F as [|e' es' F1 F2]; subst. unfold on_print_lines. cbv zeta. rewrite F1.
    assert (M0 : (p_max p <? 0)%Z = false) by lia. assert (M1 : (p_max p =? 0)%Z = false) by lia. rewrite M0, M1.
    destruct n as [|n].
    + assert (Q : (0 <? p_max p - 1)%Z = false) by lia. rewrite Q. pose proof (dispatch_answers (p_keys p) (p_rows p) St) as D.
      destruct (answers (p_keys p)) as [|k r]; [rewrite D; reflexivity|]. destruct D as (t & T1 & T2 & T3 & D). rewrite D.
      assert (G : forall m, screens (fst (let '(t0, z) := print_entries (mk (p_rows p) (Z.of_nat (S m)) t) es in ([More] ++ Shown e :: t0, z))) = [] :: chop (p_rows p) (S m) r (e :: es)).
      { intros m. specialize (IH (mk (p_rows p) (Z.of_nat (S m)) t) m R T2 eq_refl F2). cbn [p_rows p_keys] in IH. rewrite T1 in IH.
        destruct (chop_some (p_rows p) m r es) as (s & ss & C). rewrite C in IH. transitivity ([] :: (e :: s) :: ss); [|apply (f_equal (cons [])); symmetry; exact (chop_cons _ _ _ e _ _ _ C)].
        destruct (print_entries _ es) as [t0 z]. cbn [fst app screens] in *. rewrite IH. reflexivity. }
      cbn [chop length Nat.leb firstn skipn].
      destruct k; cbn [dispatch wanted set_limit].
      * destruct T3.
      * destruct (Z.to_nat (p_rows p - 2)) as [|m] eqn:W; [lia|]. replace (Z.max (p_rows p - 2) 0) with (Z.of_nat (S m)) by lia. cbn [p_max]; match goal with |- context [(0 <=? ?z)%Z] => replace (0 <=? z)%Z with true by lia end; apply G.
      * assert (H2 : (1 <= p_rows p / 2)%Z) by (apply Z.div_le_lower_bound; lia).
        destruct (Z.to_nat (p_rows p / 2)) as [|m] eqn:W; [lia|]. replace (Z.max (p_rows p / 2) 0) with (Z.of_nat (S m)) by lia. cbn [p_max]; match goal with |- context [(0 <=? ?z)%Z] => replace (0 <=? z)%Z with true by lia end; apply G.
      * exact (G O).
      * reflexivity.
      * destruct T3.
      * destruct T3.
      * reflexivity.
    + assert (Q : (0 <? p_max p - 1)%Z = true) by lia. rewrite Q.
      specialize (IH (mk (p_rows p) (p_max p - 1) (p_keys p)) n R St ltac:(cbn [p_max]; lia) F2). cbn [p_rows p_keys] in IH.
      destruct (chop_some (p_rows p) n (answers (p_keys p)) es) as (s & ss & C). rewrite C in IH. transitivity ((e :: s) :: ss); [|symmetry; exact (chop_cons _ _ _ e _ _ _ C)].
      destruct (print_entries _ es) as [t0 z]. cbn [fst app] in *. apply screens_shown, IH.
Qed.

(** C112: when every entry takes one row, the screens are: all rows but two at first, then after each question as
    many as the answer asks for: all but two, half of them, one, or none; other keys change nothing. *)
Theorem screens_as_asked : forall rows ks ws ls, (3 <= rows)%Z -> steady ks -> Forall (fun e => snd e = 1)%Z (ws ++ ls) ->
  screens (trace rows ks ws ls) = chop rows (Z.to_nat (rows - 2)) (answers ks) (listing ws ls).
Proof.
  intros rows ks ws ls R S F. unfold trace. rewrite show_listing. apply Forall_app in F. destruct F as [F1 F2].
  apply (entries_chop (listing ws ls) (start_pager rows ks) (Z.to_nat (rows - 2))); cbn [start_pager p_rows p_max p_keys set_limit]; [exact R | exact S | lia|].
  unfold listing. destruct ws; [exact F2|]. constructor; [reflexivity|]. apply Forall_app. split; [exact F1|]. constructor; [reflexivity | exact F2].
Qed.
Print Assumptions screens_as_asked.

Example some_screens : screens (trace 6 [Help; Half; Other; One; Page; Stop] [(7%nat, 1%Z)] (rowsof 20)) =
  [[blank; (7%nat, 1%Z); blank; (1%nat, 1%Z)]; [(2%nat, 1%Z); (3%nat, 1%Z); (4%nat, 1%Z)]; [(5%nat, 1%Z)]; [(6%nat, 1%Z); (7%nat, 1%Z); (8%nat, 1%Z); (9%nat, 1%Z)]; []].
Proof. vm_compute. reflexivity. Qed.
Example some_meets : (3 <= 6)%Z /\ steady [Help; Half; Other; One; Page; Stop] /\ Forall (fun e => snd e = 1)%Z ([(7%nat, 1%Z)] ++ rowsof 20).
Proof. split; [lia|]. split; [intros r X; cbn in X; repeat (destruct X as [X | X]; [discriminate|]); exact X | vm_compute; repeat constructor]. Qed.
Example some_asks : exists a b, trace 6 [Page] [] (rowsof 9) = a ++ More :: b /\ shown a = rowsof 4.
Proof. eexists (map Shown (rowsof 4)), _. vm_compute. split; reflexivity. Qed.
Example some_stopped : exists t, show_key_bindings 5 [One; Stop] [] (rowsof 9) = (t, Halt) /\ shown t = rowsof 4.
Proof. eexists. vm_compute. split; reflexivity. Qed.
Example some_two_rows : Forall (fun e => 0 < snd e <= 2)%Z [(1%nat, 2%Z); (2%nat, 1%Z); (3%nat, 2%Z)] /\ length (screens (trace 4 [Page; One] [] [(1%nat, 2%Z); (2%nat, 1%Z); (3%nat, 2%Z)])) = 3%nat.
Proof. split; [repeat constructor; vm_compute; discriminate || reflexivity | vm_compute; reflexivity]. Qed.
