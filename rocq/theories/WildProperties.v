(** C26: matching a name against a pattern with wildcards. *)
From Coq Require Import String.
From Verif Require Import Base CmpModel CmpSpec CmpProofs CmpProperties WildModel WildSpec WildProofs.
Local Open Scope list_scope.

Definition same_in (lower : N -> N) (mode : nat) (fuzzy : bool) (c d : N) : Prop :=
  key lower mode fuzzy false c = key lower mode fuzzy false d.
Definition text (l : list N) : Prop := Forall (fun c => c <> 0%N) l.

(** For a pattern with at most ten stars the matcher terminates, and accepts exactly the instances of the pattern. *)
Theorem c26_match : forall lower mode fuzzy dots me p f,
  lower_ok lower -> text p -> text f -> stars p <= 10 ->
  exists k b, (forall n, k <= n -> match_wild lower mode fuzzy n p f dots me = Some b) /\
    (b = true <-> matches (same_in lower mode fuzzy) p f dots me p f).
Proof.
  intros lower mode fuzzy dots me p f Hl Hp Hf Hst.
  destruct (go lower mode fuzzy Hl p f dots me (length p) (length f) p f []) as (k & b & Hk & Hb); auto.
  - exists []; reflexivity.
  - exists []; reflexivity.
  - cbn [length]. lia.
  - intros _. constructor.
  - apply backs_nil.
  - exists k, b. split; [intros n Hn; eapply run_more; eauto|]. rewrite Hb. split; [intros [H|H]; [exact H|inversion H]|intro H; left; exact H].
Qed.

(** For any pattern at all the matcher terminates, and what it accepts is an instance. *)
Theorem c26_any_pattern : forall lower mode fuzzy dots me p f, lower_ok lower -> text p -> text f ->
  exists k b, (forall n, k <= n -> match_wild lower mode fuzzy n p f dots me = Some b) /\
    (b = true -> matches (same_in lower mode fuzzy) p f dots me p f).
Proof.
  intros lower mode fuzzy dots me p f Hl Hp Hf.
  destruct (go_sound lower mode fuzzy Hl p f dots me (length p) (length f) p f []) as (k & b & Hk & Hb); auto.
  - exists []; reflexivity.
  - exists []; reflexivity.
  - discriminate.
  - exists k, b. split; [intros n Hn; eapply run_more; eauto|]. intro E. destruct (Hb E) as [H|H]; [exact H|inversion H].
Qed.

(** *** Names without separators *)
Lemma star_ext same p0 f0 me w c p2 : ~ wild c -> not_sep (c :: p2) -> Forall wild w -> forall f,
  matches same p0 f0 false me (w ++ c :: p2) f ->
  exists x d f', f = x ++ d :: f' /\ same c d /\ matches same p0 f0 false me p2 f'.
Proof.
  intros Hc Hs. induction 1 as [|v w Hv Hw IH]; intros f H; cbn [app] in H.
  - inversion H; subst; try discriminate.
    + exists [], d, f1. auto.
    + exfalso. exact (Forall_inv Hs H2).
    + exfalso. apply Hc. left; reflexivity.
    + exfalso. apply Hc. left; reflexivity.
    + exfalso. apply Hc. right; reflexivity.
    + exfalso. apply Hc. right; reflexivity.
  - destruct Hv as [->| ->].
    + inversion H as [|? ? ? ? Hx| |d p' f' Hd' H1|p' H1| | |]; subst; try discriminate.
      * exfalso. apply Hx. left; reflexivity.
      * exfalso. match goal with h : sep QM |- _ => destruct h; discriminate end.
      * rename H1 into H2. destruct (IH f' H2) as (x & d' & g & -> & Hd & Hg). exists (d :: x), d', g. auto.
      * destruct (IH [] H1) as (x & d' & g & E & _). destruct x; discriminate.
    + inversion H as [|? ? ? ? Hx| | | |w' s' Hw' Hs'|w' c' d' s' p' f' Hw' Hc' Hd' Hs' Hm' Ep Ef|]; subst; try discriminate.
      * exfalso. apply Hx. right; reflexivity.
      * exfalso. match goal with h : sep STAR |- _ => destruct h; discriminate end.
      * exfalso. apply Forall_app in Hw' as [_ Hw']. exact (Hc (Forall_inv Hw')).
      * apply (f_equal skip_wild) in Ep. rewrite !skip_wild_app in Ep by auto. inversion Ep; subst. eauto 6.
Qed.

Lemma glob_matches same p0 f0 me p f : not_sep p -> not_sep f -> glob same p f -> matches same p0 f0 false me p f.
Proof.
  intros Hp Hf H. induction H as [|c d p f Hc Hd H IH|d p f H IH|s p f H IH].
  - constructor.
  - apply W_char; auto; [exact (Forall_inv Hp)|]. apply IH; [exact (Forall_inv_tail Hp)|exact (Forall_inv_tail Hf)].
  - apply W_any; [exact (Forall_inv Hf)|]. apply IH; [exact (Forall_inv_tail Hp)|exact (Forall_inv_tail Hf)].
  - apply Forall_inv_tail in Hp. pose proof Hf as Hsf. apply Forall_app in Hf as [Hs Hf]. specialize (IH Hp Hf).
    destruct (skip_wild_split p) as (w & Ew & Hw & Hns). destruct (skip_wild p) as [|c p2].
    + rewrite app_nil_r in Ew. subst w. apply W_star_end; auto.
    + cbn [starts] in Hns. rewrite Ew in IH, Hp |- *. apply Forall_app in Hp as [_ Hp].
      destruct (star_ext _ _ _ _ _ _ _ Hns Hp Hw _ IH) as (x & d & f' & -> & Hd & Hm).
      rewrite app_assoc. apply W_star; auto. intros _. apply Forall_app in Hf as [Hx _]. apply Forall_app. auto.
Qed.

Lemma glob_stars same w p f : Forall wild w -> ~ In QM w -> glob same p f -> glob same (w ++ p) f.
Proof.
  induction 1 as [|v w Hv Hw IH]; intros Hn H; [auto|]. cbn [app]. destruct Hv as [->| ->].
  - exfalso. apply Hn. left; reflexivity.
  - apply (G_star same []). apply IH; [|auto]. intro Hi. apply Hn. right. exact Hi.
Qed.

Lemma matches_glob same p0 f0 me p f : not_sep p -> ~ In QM p -> matches same p0 f0 false me p f -> glob same p f.
Proof.
  intros Hp Hq H. induction H as [|c d p f Hc Hs Hd H IH|c d s t p f Hc Hd Hs Ht Hp' Hf' H IH|d p f Hd H IH|p H IH|w s Hw Hs|w c d s p f Hw Hc Hd Hs H IH|ds c p f Hx]; try discriminate.
  - constructor.
  - apply G_char; auto. apply IH; [exact (Forall_inv_tail Hp)|]. intro Hi. apply Hq. right; auto.
  - exfalso. exact (Forall_inv Hp Hc).
  - exfalso. apply Hq. left; reflexivity.
  - exfalso. apply Hq. left; reflexivity.
  - rewrite <- (app_nil_r s). apply G_star. rewrite <- (app_nil_r w). apply glob_stars; auto; [|constructor].
    intro Hi. apply Hq. right; auto.
  - apply G_star. apply glob_stars; auto.
    + intro Hi. apply Hq. right. apply in_or_app. auto.
    + apply G_char; auto. apply IH.
      * apply Forall_inv_tail in Hp. apply Forall_app in Hp as [_ Hp]. exact (Forall_inv_tail Hp).
      * intro Hi. apply Hq. right. apply in_or_app. right. right. exact Hi.
Qed.

(** Patterns of literals and at most ten *: exactly the textbook meaning. *)
Theorem c26_stars_only : forall lower mode fuzzy me p f,
  lower_ok lower -> text p -> text f -> stars p <= 10 -> not_sep p -> not_sep f -> ~ In QM p ->
  exists k b, (forall n, k <= n -> match_wild lower mode fuzzy n p f false me = Some b) /\
    (b = true <-> glob (same_in lower mode fuzzy) p f).
Proof.
  intros lower mode fuzzy me p f Hl Hp Hf Hst Hsp Hsf Hq.
  destruct (c26_match lower mode fuzzy false me p f Hl Hp Hf Hst) as (k & b & Hk & Hb). exists k, b. split; [exact Hk|].
  rewrite Hb. split; [apply matches_glob; auto|apply glob_matches; auto].
Qed.

(** With ? as well, every textbook instance is accepted. *)
Theorem c26_instances_match : forall lower mode fuzzy me p f,
  lower_ok lower -> text p -> text f -> stars p <= 10 -> not_sep p -> not_sep f ->
  glob (same_in lower mode fuzzy) p f ->
  exists k, forall n, k <= n -> match_wild lower mode fuzzy n p f false me = Some true.
Proof.
  intros lower mode fuzzy me p f Hl Hp Hf Hst Hsp Hsf Hg.
  destruct (c26_match lower mode fuzzy false me p f Hl Hp Hf Hst) as (k & b & Hk & Hb). exists k.
  assert (b = true) as -> by (apply Hb; apply glob_matches; auto). exact Hk.
Qed.

(** *** Refutations of the textbook meaning *)

(** Eleven stars: an instance is refused. *)
Definition eleven : list N := bs "*a*a*a*a*a*a*a*a*a*a*a".
Definition eleven_as : list N := bs "aaaaaaaaaaa".
Theorem c26_many_stars_refuted : glob (same_in ascii_lower 0 false) eleven eleven_as /\
  match_wild ascii_lower 0 false 1000 eleven eleven_as false EvNo = Some false.
Proof.
  split; [|vm_compute; reflexivity].
  unfold eleven, eleven_as. cbn [bs].
  repeat (apply (G_star _ []); apply G_char; [unfold wild, QM, STAR; vm_compute; intros [H|H]; discriminate|reflexivity|]). constructor.
Qed.

(** A missing character: ? at the end, or after a star, accepts nothing at all. *)
Theorem c26_missing_char_refuted :
  match_wild ascii_lower 0 false 1000 (bs "ab??") (bs "ab") false EvNo = Some true /\
  match_wild ascii_lower 0 false 1000 (bs "*?b") (bs "b") false EvNo = Some true /\
  ~ glob (same_in ascii_lower 0 false) (bs "ab??") (bs "ab").
Proof.
  split; [vm_compute; reflexivity|]. split; [vm_compute; reflexivity|]. intro H. cbn in H.
  repeat match goal with h : glob _ _ _ |- _ => inversion h; subst; clear h end.
Qed.

(** A separator directly after a star stands for exactly one separator, elsewhere for any number. *)
Theorem c26_separators_after_star :
  match_wild ascii_lower 0 false 1000 (bs "a/b") (bs "a//b") false EvNo = Some true /\
  match_wild ascii_lower 0 false 1000 (bs "*/b") (bs "a//b") false EvNo = Some false.
Proof. split; vm_compute; reflexivity. Qed.

Lemma ascii_lower_ok : lower_ok ascii_lower.
Proof.
  unfold lower_ok, ascii_lower, sep, DOT. split; [|split]; intro c;
    destruct ((65 <=? c) && (c <=? 90))%N eqn:E; lia.
Qed.

Example c26_example :
  lower_ok ascii_lower /\ text (bs "sub\*.TX?") /\ text (bs "SUB//a.b.txt") /\ stars (bs "sub\*.TX?") <= 10 /\
  match_wild ascii_lower 1 false 1000 (bs "sub\*.TX?") (bs "SUB//a.b.txt") false EvNo = Some true /\
  match_wild ascii_lower 1 false 1000 (bs "sub\*.TX?") (bs "SUB//a/b.txt") false EvNo = Some false /\
  match_wild ascii_lower 1 false 1000 (bs "sub\*") (bs "SUB//a/b.txt") false EvAtEnd = Some true /\
  match_wild ascii_lower 1 false 1000 (bs "a/b*") (bs "a/..bcd") true EvNo = Some true.
Proof.
  split; [apply ascii_lower_ok|]. split; [repeat (constructor; [discriminate|]); constructor|].
  split; [repeat (constructor; [discriminate|]); constructor|]. vm_compute. repeat split; auto; lia.
Qed.

Print Assumptions c26_match.
Print Assumptions c26_any_pattern.
Print Assumptions c26_stars_only.
Print Assumptions c26_instances_match.
Print Assumptions c26_many_stars_refuted.
Print Assumptions c26_missing_char_refuted.
Print Assumptions c26_separators_after_star.
