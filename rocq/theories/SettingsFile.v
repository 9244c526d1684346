(** Proofs about settings: writing the file and reading it. *)
From Verif Require Import Base ColorModel ColorSpec SettingsModel SettingsSpec SettingsProofs.
Arguments dec : simpl never.

(** ** Lines *)
Lemma line_cons c l : line_ok (c :: l) -> (c <> CR /\ c <> LF /\ c <> NUL) /\ line_ok l.
Proof. intro H. split; [apply H; left; reflexivity|]. intros x X. apply H. right. exact X. Qed.
Lemma crlf_line l : line_ok l -> crlf l = l.
Proof.
  unfold crlf. induction l as [|c l IH]; intro H; auto. apply line_cons in H as [(_ & A & _) H]. cbn [flat_map].
  destruct (Ascii.eqb_spec c LF); [congruence|]. cbn [app]. rewrite IH; auto.
Qed.
Lemma lines_from_line l : forall cur rest, line_ok l -> lines_from (l ++ CR :: LF :: rest) cur = flush (cur ++ l) ++ lines_from rest [].
Proof.
  induction l as [|c l IH]; intros cur rest H.
  - rewrite app_nil_r. cbn. reflexivity.
  - apply line_cons in H as [(A & B & _) H]. cbn [app lines_from].
    destruct (Ascii.eqb_spec c LF); [congruence|]. destruct (Ascii.eqb_spec c CR); [congruence|]. cbn [orb].
    rewrite IH by auto. rewrite <- app_assoc. reflexivity.
Qed.
Definition nonempty (l : bytes) : bool := match l with [] => false | _ => true end.
Lemma flush_filter l ls : flush l ++ ls = filter nonempty [l] ++ ls.
Proof. destruct l; reflexivity. Qed.
Lemma lines_of_unlines ls : Forall line_ok ls -> lines_of (crlf (unlines ls)) = filter nonempty ls.
Proof.
  unfold lines_of. induction ls as [|l ls IH]; intro F; auto. pose proof (Forall_inv F) as A. apply Forall_inv_tail in F.
  unfold unlines. cbn [map concat]. unfold crlf. rewrite flat_map_app, flat_map_app. fold (crlf l).
  change (flat_map (fun c => if Ascii.eqb c LF then [CR; LF] else [c]) [LF]) with [CR; LF]. rewrite crlf_line by auto.
  fold (unlines ls). fold (crlf (unlines ls)). rewrite <- app_assoc. cbn [app]. rewrite lines_from_line by auto. cbn [app].
  rewrite flush_filter, IH by auto. change (l :: ls) with ([l] ++ ls). rewrite filter_app. reflexivity.
Qed.
Lemma until_nul_id l : ~ In NUL l -> until_nul l = l.
Proof.
  induction l as [|c l IH]; intro H; auto. cbn [until_nul]. destruct (Ascii.eqb_spec c NUL) as [->|N]; [exfalso; apply H; left; reflexivity|].
  rewrite IH; [reflexivity|]. intro X. apply H. right. exact X.
Qed.
Lemma unlines_no_nul ls : Forall line_ok ls -> ~ In NUL (crlf (unlines ls)).
Proof.
  intros F H. unfold crlf in H. apply in_flat_map in H as (c & H & X).
  destruct (Ascii.eqb_spec c LF) as [->|N]; [destruct X as [X|[X|[]]]; discriminate|]. destruct X as [->|[]].
  unfold unlines in H. apply in_concat in H as (l & L & H). apply in_map_iff in L as (x & <- & L).
  apply in_app_or in H as [H|[H|[]]]; [|discriminate]. rewrite Forall_forall in F. destruct (F x L NUL H) as (_ & _ & K). congruence.
Qed.
Lemma unlines_app a b : unlines (a ++ b) = unlines a ++ unlines b.
Proof. unfold unlines. rewrite map_app, concat_app. reflexivity. Qed.

(** ** Blocks *)
Record block := mkblock { b_comment : list bytes; b_name : bytes; b_value : bytes }.
Definition assignment (n v : bytes) : bytes := n ++ lit " = " ++ v.
Definition block_lines (b : block) : list bytes := b_comment b ++ [assignment (b_name b) (b_value b); []].
Definition block_lines' (b : block) : list bytes := b_comment b ++ [assignment (b_name b) (b_value b)].
Record block_ok (b : block) : Prop := mkbok {
  bo_name : name_ok (b_name b); bo_value : value_ok (b_value b);
  bo_comment : Forall (fun l => line_ok l /\ exists r, l = "#"%char :: r) (b_comment b) }.

Lemma assignment_line n v : name_ok n -> value_ok v -> line_ok (assignment n v).
Proof. intros [A _] [B _]. unfold assignment. apply line_ok_app; auto. apply line_ok_app; auto. apply reg_line. reflexivity. Qed.
Lemma block_line b : block_ok b -> Forall line_ok (block_lines b).
Proof.
  intros [A B C]. unfold block_lines. apply Forall_app. split.
  - eapply Forall_impl; [|exact C]. intros l [H _]. exact H.
  - apply Forall_cons; [apply assignment_line; auto|]. apply Forall_cons; [intros x []|apply Forall_nil].
Qed.
Lemma filter_id (ls : list bytes) : Forall (fun l => line_ok l /\ exists r, l = "#"%char :: r) ls -> filter nonempty ls = ls.
Proof.
  induction ls as [|l ls IH]; intro F; auto. pose proof (Forall_inv F) as [_ (r & E)]. apply Forall_inv_tail in F.
  cbn. rewrite E at 1. cbn. rewrite IH; auto.
Qed.
Lemma block_filter bs : Forall block_ok bs -> filter nonempty (flat_map block_lines bs) = flat_map block_lines' bs.
Proof.
  induction bs as [|b bs IH]; intro F; auto. pose proof (Forall_inv F) as [A B C]. apply Forall_inv_tail in F.
  cbn [flat_map]. rewrite filter_app, IH by auto. f_equal. unfold block_lines, block_lines'. rewrite filter_app, filter_id by auto. f_equal.
  unfold assignment. destruct (b_name b); reflexivity.
Qed.

Lemma split_at_app d a b : ~ In d a -> split_at d (a ++ d :: b) = Some (a, b).
Proof.
  induction a as [|c a IH]; intro H; cbn.
  - rewrite Ascii.eqb_refl. reflexivity.
  - destruct (Ascii.eqb_spec c d) as [->|N]; [exfalso; apply H; left; reflexivity|].
    rewrite IH; [reflexivity|]. intro X. apply H. right. exact X.
Qed.
Lemma skip_space_id c l : ~ blank c -> skip_space (c :: l) = c :: l.
Proof. intro H. cbn. rewrite not_blank by auto. reflexivity. Qed.
Lemma skip_value v : value_ok v -> skip_space v = v.
Proof. intros [_ H]. destruct v as [|c v]; auto. apply skip_space_id. eapply H; eauto. Qed.
Lemma rtrim_name n : (forall r c, n = r ++ [c] -> ~ blank c) -> rtrim (n ++ [SPC]) = n.
Proof.
  intro H. unfold rtrim. rewrite rev_unit. change (skip_space (SPC :: rev n)) with (skip_space (rev n)).
  destruct (rev n) as [|c r] eqn:E.
  - cbn. apply (f_equal (@rev _)) in E. rewrite rev_involutive in E. subst. reflexivity.
  - apply (f_equal (@rev _)) in E. rewrite rev_involutive in E. cbn [rev] in E. rewrite skip_space_id by (eapply H; eauto).
    cbn [rev]. auto.
Qed.
Lemma assign_lines cs n v r was com : name_ok n -> value_ok v ->
  load_lines cs (assignment n v :: r) was com =
  mkas n (migrate n v) (if was then com else []) :: load_lines cs r false (if was then com else []).
Proof.
  intros (A & B & C & D) V. cbn [load_lines]. cbv zeta.
  assert (E : exists c d, skip_space (assignment n v) = c :: d /\ Ascii.eqb c "#" = false /\ split_at "=" (c :: d) = Some (skip_space (n ++ [SPC]), SPC :: v)
     /\ rtrim (skip_space (n ++ [SPC])) = n).
  { destruct n as [|c n].
    - exists "="%char, (SPC :: v). unfold assignment. split; [reflexivity|]. split; [reflexivity|]. split; reflexivity.
    - destruct (C c n eq_refl) as [C1 C2]. exists c, (n ++ lit " = " ++ v). unfold assignment. cbn [app]. rewrite !skip_space_id by auto.
      split; [reflexivity|]. split; [destruct (Ascii.eqb_spec c "#"); [congruence|reflexivity]|].
      split; [|apply (rtrim_name (c :: n)); auto].
      change (c :: n ++ lit " = " ++ v) with ((c :: n) ++ [SPC] ++ "="%char :: SPC :: v). rewrite app_assoc. rewrite split_at_app; [reflexivity|].
      intro X. apply in_app_or in X as [X|[X|[]]]; [auto|discriminate]. }
  destruct E as (c & d & E1 & E2 & E3 & E4). rewrite E1, E2, E3, E4.
  change (skip_space (SPC :: v)) with (skip_space v). rewrite skip_value by auto. reflexivity.
Qed.
Lemma comment_lines cs ls : forall r was com, Forall (fun l => line_ok l /\ exists r, l = "#"%char :: r) ls ->
  ls <> [] -> load_lines cs (ls ++ r) was com = load_lines cs r true ((if was then com else []) ++ unlines ls).
Proof.
  induction ls as [|l ls IH]; intros r was com F NE; [congruence|]. pose proof (Forall_inv F) as [_ (x & E)]. apply Forall_inv_tail in F.
  cbn [app load_lines]. cbv zeta. rewrite E. rewrite skip_space_id by (intro H; apply is_space_blank in H; discriminate).
  rewrite Ascii.eqb_refl. destruct ls as [|l2 ls].
  - cbn [app]. unfold unlines. cbn [map concat]. rewrite app_nil_r. reflexivity.
  - rewrite IH by (auto; discriminate). unfold unlines. cbn [map concat]. rewrite <- !app_assoc. reflexivity.
Qed.
Lemma load_blocks cs bs : forall com, Forall block_ok bs ->
  load_lines cs (flat_map block_lines' bs) false com =
  map (fun b => mkas (b_name b) (migrate (b_name b) (b_value b)) (unlines (b_comment b))) bs.
Proof.
  induction bs as [|b bs IH]; intros com F; auto. pose proof (Forall_inv F) as [A B C]. apply Forall_inv_tail in F.
  cbn [flat_map map]. unfold block_lines' at 1. rewrite <- app_assoc. cbn [app]. destruct (b_comment b) as [|l ls] eqn:E.
  - cbn [app]. rewrite assign_lines by auto. rewrite IH by auto. reflexivity.
  - rewrite comment_lines by (auto; discriminate). rewrite assign_lines by auto. rewrite IH by auto. reflexivity.
Qed.
Lemma read_blocks b1 sep b2 : Forall block_ok b1 -> Forall block_ok b2 -> Forall (eq []) sep ->
  read_file (crlf (unlines (flat_map block_lines b1 ++ sep ++ flat_map block_lines b2))) =
  map (fun b => mkas (b_name b) (migrate (b_name b) (b_value b)) (unlines (b_comment b))) (b1 ++ b2).
Proof.
  intros F1 F2 S.
  assert (L : forall bs, Forall block_ok bs -> Forall line_ok (flat_map block_lines bs)).
  { intros bs F. apply Forall_flat_map. eapply Forall_impl; [|exact F]. intros b H. apply block_line. exact H. }
  assert (LA : Forall line_ok (flat_map block_lines b1 ++ sep ++ flat_map block_lines b2)).
  { apply Forall_app. split; [auto|]. apply Forall_app. split; [|auto]. eapply Forall_impl; [|exact S]. intros l <- x []. }
  unfold read_file. rewrite until_nul_id by (apply unlines_no_nul; auto). rewrite lines_of_unlines by auto. cbv zeta.
  rewrite !filter_app, !block_filter by auto.
  assert (E : filter nonempty sep = []). { clear - S. induction S as [|l ls <- S IH]; auto. }
  rewrite E. cbn [app]. rewrite <- flat_map_app. apply load_blocks. apply Forall_app. auto.
Qed.

(** ** Names *)
Lemma named_refl s : named (s_name s) s = true.
Proof. apply iequal_refl. Qed.
Lemma update_at n f a s b : Forall (fun x => named n x = false) a -> named n s = true -> update n f (a ++ s :: b) = a ++ f s :: b.
Proof.
  intros F H. induction F as [|x a X F IH]; cbn.
  - rewrite H. reflexivity.
  - rewrite X, IH. reflexivity.
Qed.
Lemma update_none n f a : Forall (fun x => named n x = false) a -> update n f a = a.
Proof. induction 1 as [|x a X F IH]; cbn; auto. rewrite X, IH. reflexivity. Qed.

(** ** Order *)
Lemma ltb_irrefl a : ltb_bytes a a = false.
Proof. induction a as [|x a IH]; cbn; auto. rewrite Ascii.eqb_refl. exact IH. Qed.
Lemma ltb_trans a : forall b c, ltb_bytes a b = true -> ltb_bytes b c = true -> ltb_bytes a c = true.
Proof.
  induction a as [|x a IH]; intros [|y b] [|z c] A B; cbn in *; try discriminate; auto.
  destruct (Ascii.eqb_spec x y) as [->|N1]; destruct (Ascii.eqb_spec y z) as [->|N2].
  - rewrite ?Ascii.eqb_refl. eauto.
  - auto.
  - destruct (Ascii.eqb_spec x z); [congruence|auto].
  - destruct (Ascii.eqb_spec x z) as [->|N3]; lia.
Qed.
Lemma ltb_total a : forall b, a <> b -> ltb_bytes a b = false -> ltb_bytes b a = true.
Proof.
  induction a as [|x a IH]; intros [|y b] N H; cbn in *; try congruence; auto.
  destruct (Ascii.eqb_spec x y) as [->|N1].
  - rewrite Ascii.eqb_refl. apply IH; congruence.
  - destruct (Ascii.eqb_spec y x) as [->|N2]; [congruence|].
    assert (N_of_ascii x <> N_of_ascii y). { intro E. apply N1. rewrite <- (ascii_N_embedding x), <- (ascii_N_embedding y). congruence. }
    lia.
Qed.
Definition before (a b : loaded) : Prop := ltb_bytes (l_name a) (l_name b) = true.
Lemma emplace_in e m x : In x (emplace e m) -> x = e \/ In x m.
Proof.
  induction m as [|y m IH]; cbn.
  - intros [H|[]]; auto.
  - destruct (eqb_bytes _ _); [cbn; tauto|]. destruct (ltb_bytes _ _); cbn; [intros [H|H]; auto|intros [H|H]; auto]. apply IH in H. tauto.
Qed.
Lemma emplace_sorted e m : StronglySorted before m -> StronglySorted before (emplace e m).
Proof.
  induction 1 as [|y m S IH F]; cbn.
  - apply SSorted_cons; [apply SSorted_nil|apply Forall_nil].
  - destruct (eqb_bytes (l_name e) (l_name y)) eqn:E; [apply SSorted_cons; auto|].
    destruct (ltb_bytes (l_name e) (l_name y)) eqn:L.
    + apply SSorted_cons; [apply SSorted_cons; auto|]. apply Forall_cons; [exact L|].
      eapply Forall_impl; [|exact F]. intros z Z. eapply ltb_trans; eauto.
    + apply SSorted_cons; auto. apply Forall_forall. intros z Z. apply emplace_in in Z as [->|Z].
      * apply ltb_total; auto. apply eqb_bytes_neq. exact E.
      * rewrite Forall_forall in F. auto.
Qed.
Lemma emplace_last e m : Forall (fun x => before x e) m -> emplace e m = m ++ [e].
Proof.
  induction 1 as [|y m H F IH]; cbn; auto. unfold before in H.
  destruct (eqb_bytes (l_name e) (l_name y)) eqn:E; [apply eqb_bytes_eq in E; rewrite E, ltb_irrefl in H; discriminate|].
  destruct (ltb_bytes (l_name e) (l_name y)) eqn:L.
  - pose proof (ltb_trans _ _ _ H L) as X. rewrite ltb_irrefl in X. discriminate.
  - rewrite IH. reflexivity.
Qed.
Lemma filter_sorted p m : StronglySorted before m -> StronglySorted before (filter p m).
Proof.
  induction 1 as [|y m S IH F]; cbn; [apply SSorted_nil|]. destruct (p y); auto. apply SSorted_cons; auto.
  apply Forall_forall. intros z Z. apply filter_In in Z as [Z _]. rewrite Forall_forall in F. auto.
Qed.

(** ** Saving *)
Section P.
Variable same : bytes -> bytes -> bool.
Notation reset' := (reset same).

Definition s_text (s : setting) : bytes := match describe_val (s_kind s) (s_val s) true with Some t => t | None => [] end.
Definition s_comment (s : setting) : list bytes :=
  [lit "# name: " ++ s_desc s; lit "# type: " ++ type_name (s_kind s)] ++ match s_kind s with KEnum o => [lit "# options: " ++ o] | _ => [] end.
Definition s_block (s : setting) : block := mkblock (s_comment s) (s_name s) (s_text s).

Lemma unlines_write s t : describe_val (s_kind s) (s_val s) true = Some t -> write_setting s = Some (unlines (block_lines (s_block s))).
Proof.
  intro D. unfold write_setting, s_block, s_text. rewrite D. unfold block_lines, s_comment, assignment, unlines. cbn [b_comment b_name b_value].
  f_equal. destruct (s_kind s); cbn [app map concat]; rewrite <- ?app_assoc; cbn [app]; rewrite <- ?app_assoc; cbn [app]; reflexivity.
Qed.
Definition full_value (s : setting) : Prop := value_of (s_kind s) (s_val s).
Lemma full reg : Forall (fun s => value_of0 (s_kind s) (s_val s)) reg -> colors_ok reg -> Forall full_value reg.
Proof.
  intros F C. apply Forall_forall. intros s H. unfold colors_ok in C. rewrite Forall_forall in F, C. specialize (F s H). specialize (C s H).
  unfold full_value. cbn beta in *. destruct (s_kind s), (s_val s); cbn in *; auto.
Qed.
Lemma opts_of_decl s : declared same s -> match s_kind s with KEnum o => options_ok same o | _ => True end.
Proof. intros D. apply (d_options _ _ D). Qed.
Lemma s_block_ok s : declared same s -> full_value s -> block_ok (s_block s).
Proof.
  intros D V. destruct (describe_round same _ _ V (opts_of_decl s D)) as (t & T & _).
  apply mkbok; cbn [s_block b_name b_value b_comment].
  - apply (d_name _ _ D).
  - unfold s_text. rewrite T. eapply describe_line; eauto. apply opts_of_decl; auto.
  - unfold s_comment. apply Forall_app. split.
    + apply Forall_cons; [split; [apply line_ok_app; [apply reg_line; reflexivity|apply (d_desc _ _ D)]|eexists; reflexivity]|].
      apply Forall_cons; [split; [apply line_ok_app; [apply reg_line; reflexivity|apply reg_line; destruct (s_kind s); reflexivity]|eexists; reflexivity]|apply Forall_nil].
    + pose proof (opts_of_decl s D) as O. destruct (s_kind s); try apply Forall_nil. destruct O as [O _].
      apply Forall_cons; [split; [apply line_ok_app; [apply reg_line; reflexivity|exact O]|eexists; reflexivity]|apply Forall_nil].
Qed.
Lemma write_all reg : Forall (declared same) reg -> Forall full_value reg ->
  write_settings reg = Some (unlines (flat_map block_lines (map s_block (filter s_save reg)))).
Proof.
  induction reg as [|s reg IH]; intros D V; auto. pose proof (Forall_inv D) as D1. pose proof (Forall_inv V) as V1. apply Forall_inv_tail in D, V.
  cbn [write_settings filter]. rewrite IH by auto. destruct (s_save s); auto.
  destruct (describe_round same _ _ V1 (opts_of_decl s D1)) as (t & T & _). rewrite (unlines_write s t T). cbn [map flat_map].
  rewrite unlines_app. reflexivity.
Qed.

(** Extra entries. *)
Definition x_block (cls : list bytes) (x : loaded) : block := mkblock cls (l_name x) (l_value x).
Lemma extra_blocks xs : Forall entry_ok xs -> exists bs, Forall block_ok bs /\ flat_map write_extra xs = unlines (flat_map block_lines bs) /\
  map (fun b => mkas (b_name b) (migrate (b_name b) (b_value b)) (unlines (b_comment b))) bs =
  map (fun x => mkas (l_name x) (l_value x) (l_comment x)) xs.
Proof.
  induction 1 as [|x xs [A B (ls & C1 & C2) D] F (bs & IH1 & IH2 & IH3)].
  - exists []. split; [apply Forall_nil|]. split; reflexivity.
  - exists (x_block ls x :: bs). split; [apply Forall_cons; auto; apply mkbok; auto|]. split.
    + cbn [flat_map]. rewrite unlines_app, IH2. f_equal. unfold write_extra, block_lines, x_block, assignment. cbn [b_comment b_name b_value].
      rewrite unlines_app, C1. f_equal. unfold unlines. cbn [map concat]. rewrite <- ?app_assoc. cbn [app]. reflexivity.
    + cbn [map]. rewrite IH3. f_equal. cbn [x_block b_name b_value b_comment]. rewrite D, C1. reflexivity.
Qed.
End P.
