(** C25, the accent table: an accented letter stands for a letter of the same case, and the two cases of an accented letter for
    the two cases of one letter. *)
From Verif Require Import Base CmpModel CmpSpec CmpProofs.
Local Open Scope N_scope.

(** The small letter of an accented capital letter, as Unicode has them (independent of the table) *)
Definition even (c : N) : bool := c mod 2 =? 0.
Definition among (a b c : N) : bool := (a <=? c) && (c <=? b).
Definition small (c : N) : option N :=
  if among 192 222 c && negb (c =? 215) then Some (c + 32)
  else if c =? 376 then Some 255
  else if (among 256 303 c || among 306 311 c || among 330 375 c || among 478 495 c || among 504 543 c || among 7680 7829 c || among 7840 7929 c) && even c
  then Some (c + 1)
  else if (among 313 328 c || among 377 382 c || among 461 476 c) && negb (even c) then Some (c + 1)
  else None.
Definition capital_letter (c : N) : Prop := 65 <= c <= 90.
Definition small_letter (c : N) : Prop := 97 <= c <= 122.

Definition pair_ok (c : N) : bool :=
  match small c with
  | None => true
  | Some d => ((assoc accents c =? c) && (assoc accents d =? d)) || (among 65 90 (assoc accents c) && (assoc accents d =? assoc accents c + 32))
  end.
Transparent accents.
Lemma beyond_table : forall l c, forallb (fun x => fst x <? c) l = true -> assoc l c = c.
Proof.
  induction l as [|[a n] l IH]; intros c H; [reflexivity|]. cbn [forallb fst] in H. apply andb_true_iff in H as [H1 H2]. cbn [assoc].
  destruct (N.eqb_spec a c); [lia|]. apply IH. exact H2.
Qed.
Lemma table_below : forallb (fun x => fst x <? 7930) accents = true.
Proof. vm_compute. reflexivity. Qed.
Lemma pairs_checked : forallb pair_ok (map N.of_nat (seq 0 (N.to_nat 7930))) = true.
Proof. vm_compute. reflexivity. Qed.
Lemma targets_checked : forallb (fun x => among 65 90 (snd x) || among 97 122 (snd x)) accents = true.
Proof. vm_compute. reflexivity. Qed.
Opaque accents.

Theorem c25_accent_case : forall c,
  (normalize_accent c = c \/ capital_letter (normalize_accent c) \/ small_letter (normalize_accent c)) /\
  forall d, small c = Some d ->
    (normalize_accent c = c /\ normalize_accent d = d) \/ (capital_letter (normalize_accent c) /\ normalize_accent d = normalize_accent c + 32).
Proof.
  intro c. split.
  - rewrite normalize_assoc. generalize targets_checked. induction accents as [|[a n] l IH]; intro H; [left; reflexivity|].
    cbn [forallb snd] in H. apply andb_true_iff in H as [H1 H2]. cbn [assoc]. destruct (N.eqb_spec a c); [|apply IH; exact H2].
    right. unfold capital_letter, small_letter, among in *. lia.
  - intros d E. rewrite !normalize_assoc. destruct (N.ltb_spec c 7930) as [L|L].
    + pose proof pairs_checked as P. rewrite forallb_forall in P. specialize (P c).
      assert (I : In c (map N.of_nat (seq 0 (N.to_nat 7930)))).
      { apply in_map_iff. exists (N.to_nat c). split; [apply N2Nat.id|]. apply in_seq. lia. }
      specialize (P I). unfold pair_ok in P. rewrite E in P. apply orb_true_iff in P as [P|P]; apply andb_true_iff in P as [P1 P2].
      * left. split; apply N.eqb_eq; assumption.
      * right. unfold capital_letter, among in *. apply N.eqb_eq in P2. split; [lia|exact P2].
    + exfalso. unfold small, among in E.
      destruct ((192 <=? c) && (c <=? 222) && negb (c =? 215)) eqn:E1; [lia|]. destruct (c =? 376) eqn:E2; [lia|].
      match type of E with (if ?b then _ else _) = _ => destruct b eqn:E3 end; [lia|].
      match type of E with (if ?b then _ else _) = _ => destruct b eqn:E4 end; [lia|discriminate].
Qed.
Print Assumptions c25_accent_case.

(** E with acute, and its small letter *)
Example ex_accent : small 201 = Some 233 /\ normalize_accent 201 = 69 /\ normalize_accent 233 = 101.
Proof. vm_compute. auto. Qed.
