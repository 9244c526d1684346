(** C114: the raw name of a key means that key in .inputrc. *)
From Verif Require Import Base KnModel.
Local Open Scope N_scope.

(** Sequences of bytes without Ctrl-Backslash, other than Alt with a byte from 128 on. *)
Definition nameable (ks : list N) : Prop := Forall (fun k => k < 256 /\ k <> 28) ks /\ (forall k, ks = [ESC; k] -> k < 128).

Definition below (n : nat) : list N := map N.of_nat (seq 0 n).
Lemma below_all : forall n (P : N -> bool), forallb P (below n) = true -> forall k, k < N.of_nat n -> P k = true.
Proof.
  intros n P H k K. rewrite forallb_forall in H. apply H. unfold below. apply in_map_iff. exists (N.to_nat k). split; [apply N2Nat.id|]. apply in_seq. lia.
Qed.
Lemma ctrl_back : forall k, k < 32 -> k <> 27 -> k <> 28 ->
  let c := nth (N.to_nat k) ctrl_map 0 in CTRL (upper c) = k /\ c <> 63 /\ c <> BACKSLASH /\ c <> QUOTE.
Proof.
  intros k K K1 K2. cbv zeta.
  pose proof (below_all 32 (fun k => (k =? 27) || (k =? 28) || ((CTRL (upper (nth (N.to_nat k) ctrl_map 0)) =? k) && negb (nth (N.to_nat k) ctrl_map 0 =? 63) && negb (nth (N.to_nat k) ctrl_map 0 =? BACKSLASH) && negb (nth (N.to_nat k) ctrl_map 0 =? QUOTE))) ltac:(vm_compute; reflexivity) k K) as H.
  cbv beta in H. apply N.eqb_neq in K1, K2. rewrite K1, K2 in H. cbn [orb] in H. apply andb_prop in H. destruct H as [H H4]. apply andb_prop in H. destruct H as [H H3]. apply andb_prop in H. destruct H as [H1 H2].
  apply N.eqb_eq in H1. apply negb_true_iff, N.eqb_neq in H2, H3, H4. repeat (split; [assumption|]). assumption.
Qed.
Definition out (meta : bool) (k : N) : list N := if meta then [ESC; UNMETA k] else [k].
Lemma key_back : forall k meta r, k <> 28 -> translate false meta (raw_key k ++ r) = out meta k ++ translate false false r.
Proof.
  intros k meta r K. unfold raw_key. destruct (k =? ESC) eqn:E1; [apply N.eqb_eq in E1; subst k; reflexivity|].
  destruct (k <? 32) eqn:E2.
  - destruct (ctrl_back k) as (A & B & C & D); [lia | apply N.eqb_neq, E1 | exact K|]. set (c := nth (N.to_nat k) ctrl_map 0) in *.
    apply N.eqb_neq in B, C. cbn [app translate dash drop1]. change (BACKSLASH =? BACKSLASH) with true. change ((67 =? 67) && (45 =? 45)) with true. cbn iota. rewrite C. unfold emit. rewrite B, A. reflexivity.
  - destruct (k =? RUBOUT) eqn:E3; [apply N.eqb_eq in E3; subst k; reflexivity|].
    destruct ((k =? BACKSLASH) || (k =? QUOTE)) eqn:E4.
    + apply orb_prop in E4. destruct E4 as [E4 | E4]; apply N.eqb_eq in E4; subst k; reflexivity.
    + apply orb_false_elim in E4. destruct E4 as [E4 _]. cbn [app translate]. rewrite E4. reflexivity.
Qed.
Lemma keys_back : forall ks, Forall (fun k => k < 256 /\ k <> 28) ks -> translate false false (flat_map raw_key ks) = ks.
Proof.
  induction ks as [|k ks IH]; intros H; [reflexivity|]. inversion H as [|k' ks' [_ H1] H2]; subst. cbn [flat_map]. rewrite key_back by exact H1. cbn [out app]. f_equal. apply IH, H2.
Qed.
(** Between the quotes of a name no quote is left open. *)
Definition closed (l : list N) : Prop := forall r, skip_to_delim false (l ++ r) = skip_to_delim false r /\ between false (l ++ r) = l ++ between false r.
Lemma closed_app : forall a b, closed a -> closed b -> closed (a ++ b).
Proof. intros a b A B r. rewrite <- app_assoc. destruct (A (b ++ r)) as [A1 A2]. destruct (B r) as [B1 B2]. rewrite A1, A2, B1, B2, app_assoc. split; reflexivity. Qed.
Lemma closed_plain : forall c, c <> BACKSLASH -> c <> QUOTE -> closed [c].
Proof. intros c A B r. apply N.eqb_neq in A, B. cbn [app skip_to_delim between orb]. rewrite A, B. split; reflexivity. Qed.
Lemma closed_key : forall k, k <> 28 -> closed (raw_key k).
Proof.
  intros k K r. unfold raw_key. destruct (k =? ESC) eqn:E1; [split; reflexivity|].
  destruct (k <? 32) eqn:E2.
  - destruct (ctrl_back k) as (A & B & C & D); [lia | apply N.eqb_neq, E1 | exact K|]. set (c := nth (N.to_nat k) ctrl_map 0) in *.
    apply (closed_app [BACKSLASH; 67; 45] [c]); [intros r'; split; reflexivity | apply closed_plain; assumption].
  - destruct (k =? RUBOUT) eqn:E3; [split; reflexivity|].
    destruct ((k =? BACKSLASH) || (k =? QUOTE)) eqn:E4; [cbn [app]; split; reflexivity|].
    apply orb_false_elim in E4. destruct E4 as [E4 E5]. apply N.eqb_neq in E4, E5. apply (closed_plain k E4 E5).
Qed.
Lemma closed_keys : forall ks, Forall (fun k => k < 256 /\ k <> 28) ks -> closed (flat_map raw_key ks).
Proof.
  induction ks as [|k ks IH]; intros H; [intros r; split; reflexivity|]. inversion H as [|k' ks' [_ H1] H2]; subst. cbn [flat_map]. apply closed_app; [apply closed_key, H1 | apply IH, H2].
Qed.
Lemma name_inner : forall ks, nameable ks -> exists l, raw_name ks = QUOTE :: l ++ [QUOTE] /\ closed l /\ translate false false l = ks.
Proof.
  intros ks [H M]. assert (D : exists l, QUOTE :: flat_map raw_key ks ++ [QUOTE] = QUOTE :: l ++ [QUOTE] /\ closed l /\ translate false false l = ks).
  { exists (flat_map raw_key ks). split; [reflexivity|]. split; [apply closed_keys, H | apply keys_back, H]. }
  unfold raw_name. destruct ks as [|e [|k [|x ks]]]; try exact D. destruct ((e =? ESC) && negb (k =? ESC)) eqn:E; [|exact D].
  apply andb_prop in E. destruct E as [E _]. apply N.eqb_eq in E. subst e. specialize (M k eq_refl).
  inversion H as [|? ? _ H']; subst. inversion H' as [|? ? [_ K] _]; subst.
  exists ([BACKSLASH; 77; 45] ++ raw_key k). split; [reflexivity|]. split; [apply closed_app; [intros r; split; reflexivity | apply closed_key, K]|].
  transitivity (translate false true (raw_key k ++ [])); [rewrite app_nil_r; reflexivity|]. rewrite (key_back k true [] K). cbn [out translate orb app].
  pose proof (below_all 128 (fun k => UNMETA k =? k) ltac:(vm_compute; reflexivity) k M) as X. apply N.eqb_eq in X. rewrite X. reflexivity.
Qed.
Lemma bound_closed : forall l rest, closed l -> hd 0 rest <> 61 -> bound_key (QUOTE :: l ++ QUOTE :: 58 :: rest) = Some (translate false false l).
Proof.
  intros l rest C R. destruct (C (QUOTE :: 58 :: rest)) as [C1 C2]. unfold bound_key. change (QUOTE =? QUOTE) with true. cbn iota. rewrite C1, C2.
  cbn [skip_to_delim between orb]. change (QUOTE =? BACKSLASH) with false. change (QUOTE =? QUOTE) with true. cbn iota. cbn [skip_to_sep]. change (58 =? 58) with true. cbn [orb andb].
  rewrite app_nil_r. destruct rest as [|x rest]; [reflexivity|]. cbn [hd] in R. apply N.eqb_neq in R. rewrite R. reflexivity.
Qed.
(** C114: a line of .inputrc made of the raw name of a key sequence, a colon and anything binds that key sequence. *)
Theorem raw_name_binds_partial : forall ks rest, nameable ks -> hd 0 rest <> 61 -> bound_key (raw_name ks ++ 58 :: rest) = Some ks.
Proof.
  intros ks rest H R. destruct (name_inner ks H) as (l & E & C & T). rewrite E. cbn [app]. rewrite <- app_assoc. cbn [app].
  rewrite bound_closed by assumption. rewrite T. reflexivity.
Qed.
Print Assumptions raw_name_binds_partial.
(** C114: two key sequences do not have the same raw name. *)
Theorem raw_names_differ_partial : forall ks ks', nameable ks -> nameable ks' -> raw_name ks = raw_name ks' -> ks = ks'.
Proof.
  intros ks ks' H H' E. pose proof (raw_name_binds_partial ks [] H ltac:(cbn; discriminate)) as A. pose proof (raw_name_binds_partial ks' [] H' ltac:(cbn; discriminate)) as B.
  rewrite E, B in A. injection A as A. symmetry. exact A.
Qed.
Print Assumptions raw_names_differ_partial.
(** The backslash of Ctrl-Backslash is not escaped: the line has no closing quote, or binds another key; and Alt with a
    byte from 128 on loses its highest bit. *)
Theorem raw_name_binds_refuted :
  (forall rest, (forall c, In c rest -> c <> QUOTE) -> bound_key (raw_name [28] ++ 58 :: rest) = None) /\
  (exists ks ks', ks <> ks' /\ In 28 ks /\ forall rest, hd 0 rest <> 61 -> bound_key (raw_name ks ++ 58 :: rest) = Some ks') /\
  (exists ks ks', ks <> ks' /\ ~ In 28 ks /\ forall rest, hd 0 rest <> 61 -> bound_key (raw_name ks ++ 58 :: rest) = Some ks').
Proof.
  split; [|split].
  - intros rest H. assert (S : forall l, (forall c, In c l -> c <> QUOTE) -> forall p, skip_to_delim p l = []).
    { induction l as [|c l IH]; intros L p; [reflexivity|]. cbn [skip_to_delim]. assert (L' : forall d, In d l -> d <> QUOTE) by (intros d D; apply L; right; exact D).
      destruct p; [apply IH, L'|]. destruct (c =? BACKSLASH); [apply IH, L'|]. destruct (c =? QUOTE) eqn:Q; [exfalso; apply (L c); [left; reflexivity | apply N.eqb_eq, Q] | apply IH, L']. }
    change (raw_name [28] ++ 58 :: rest) with (QUOTE :: [BACKSLASH; 67; 45; BACKSLASH; QUOTE; 58] ++ rest). unfold bound_key. change (QUOTE =? QUOTE) with true. cbn iota.
    change (skip_to_delim false ([BACKSLASH; 67; 45; BACKSLASH; QUOTE; 58] ++ rest)) with (skip_to_delim false rest). rewrite (S rest H false). reflexivity.
  - exists [28; 97], [7]. split; [discriminate|]. split; [left; reflexivity|]. intros rest H. apply (bound_closed [BACKSLASH; 67; 45; BACKSLASH; 97] rest); [intros r; split; reflexivity | exact H].
  - exists [27; 233], [27; 105]. split; [discriminate|]. split; [intros [X | [X | []]]; discriminate|]. intros rest H. apply (bound_closed [BACKSLASH; 77; 45; 233] rest); [intros r; split; reflexivity | exact H].
Qed.
Print Assumptions raw_name_binds_refuted.

Example some_name : raw_name [24; 21; 34; 27; 127; 195; 169] = map N_of_ascii (lit """\C-x\C-u\""\e\C-?") ++ [195; 169; 34] /\ nameable [24; 21; 34; 27; 127; 195; 169].
Proof. split; [vm_compute; reflexivity|]. split; [repeat constructor; discriminate || reflexivity | intros k X; discriminate]. Qed.
Example some_alt : raw_name [27; 18] = map N_of_ascii (lit """\M-\C-r""") /\ bound_key (map N_of_ascii (lit """\M-\C-r"": reverse-search-history")) = Some [27; 18].
Proof. split; vm_compute; reflexivity. Qed.
Example some_nameable : nameable [27; 18].
Proof. split; [repeat constructor; discriminate || reflexivity | intros k X; injection X as <-; reflexivity]. Qed.
