(** C29, C30: directories, names, extensions, parents. *)
From Coq Require Import String.
From Verif Require Import Base CmpModel CmpSpec CmpProofs CmpProperties PathModel PathProofs.
Local Open Scope list_scope.

(** ** C29 *)

(** A path is its directory, separators, and its name; the name has no separator.  Where there is no separator
    between directory and name, the directory is a mere drive or ends in one. *)
Theorem c29_recompose : forall walpha path, exists mid,
  path = get_directory walpha path ++ mid ++ get_name walpha path /\ Forall sep mid /\
  Forall (fun c => ~ sep c) (get_name walpha path) /\
  (mid = [] -> get_directory walpha path = firstn (drive_len walpha path) path \/
               exists d c, get_directory walpha path = d ++ [c] /\ sep c).
Proof.
  intros walpha path. destruct (get_name_ok walpha path) as (Hn & En & Hna & Hno). destruct (directory_end_ok walpha path) as (Hd & Hs).
  set (n := name_start walpha path) in *. set (e := get_directory_end walpha path) in *.
  exists (slice e n path). unfold get_directory. fold e. rewrite En. split; [apply slice3; lia|].
  split; [apply slice_sep; exact Hs|]. split.
  - apply nosep_at. intro i. rewrite sep_at_skipn. apply Hna. lia.
  - intro Hm. assert (e = n) by (apply (f_equal (@length N)) in Hm; rewrite slice_len in Hm by lia; cbn in Hm; lia).
    destruct Hno as [E|[Hlt Hse]]; [left; f_equal; lia|]. right.
    exists (firstn (e - 1) path), (at_ path (e - 1)). split; [|apply sep_b; rewrite H; exact Hse].
    replace e with ((e - 1) + 1) at 1 by lia. rewrite firstn_skipn_add. f_equal.
    assert (Hl : length (skipn (e - 1) path) = length path - (e - 1)) by (apply skipn_length).
    destruct (skipn (e - 1) path) as [|x l] eqn:Ex; [cbn in Hl; lia|]. cbn [firstn]. f_equal.
    change x with (nth 0 (x :: l) 0%N). rewrite <- Ex. unfold at_. rewrite <- (Nat.add_0_r (e - 1)) at 2.
    generalize (e - 1). clear. intro n. revert path. induction n as [|n IH]; intros [|y path]; cbn [skipn nth Nat.add]; auto.
Qed.

(** The extension: the part from the last dot on, if nothing but the extension follows. *)
Theorem c29_extension : forall path,
  match get_extension path with
  | Some e => exists a b, path = a ++ e /\ e = 46%N :: b /\ b <> [] /\ plain_ext b
  | None => forall a b, path = a ++ 46%N :: b -> b <> [] -> ~ plain_ext b
  end.
Proof.
  intro path. unfold get_extension. pose proof (ext_scan_ok path None) as H. destruct (ext_scan path None) as [e|].
  - destruct H as [[H _]|(a & b & -> & -> & Hp)]; [discriminate|]. destruct b as [|x b].
    + intros a' b' E Hb Hp'. destruct (exists_last Hb) as (b2 & y & ->).
      rewrite app_comm_cons, app_assoc in E. apply app_inj_tail in E as [_ <-].
      apply Forall_app in Hp' as [_ Hp']. destruct (Forall_inv Hp') as [K _]. apply K. reflexivity.
    + exists a, (x :: b). split; [reflexivity|]. split; [reflexivity|]. split; [discriminate|exact Hp].
  - intros a b -> Hb Hp. destruct H as [[_ H]|(a' & c & b' & E & Hc & Hp')].
    + apply Forall_app in H as [_ H]. destruct (Forall_inv H) as [K _]. apply K. reflexivity.
    + assert (K : forall (a a' : list N) c b b', a ++ 46%N :: b = a' ++ c :: b' -> ext_stop c = true -> plain_ext b -> plain_ext b' -> False).
      { clear. induction a as [|x a IH]; intros [|y a'] c b b' E Hc Hp Hp'; cbn [app] in E; inversion E; subst.
        - discriminate.
        - apply Forall_app in Hp as [_ Hp]. destruct (Forall_inv Hp) as [_ K]. congruence.
        - apply Forall_app in Hp' as [_ Hp']. destruct (Forall_inv Hp') as [K _]. apply K. reflexivity.
        - eapply IH; eauto. }
      eapply K; eauto.
Qed.

(** The extension is the end of the name, unless it belongs to the drive. *)
Theorem c29_extension_of_name : forall walpha path e, get_extension path = Some e ->
  length e <= length (past_drive walpha path) -> exists a, get_name walpha path = a ++ e.
Proof.
  intros walpha path e He Hl. pose proof (c29_extension path) as H. rewrite He in H.
  destruct H as (a & b & Ep & Ee & _ & Hp). destruct (get_name_ok walpha path) as (Hn & En & Hna & Hno).
  pose proof (drive_split walpha path) as Ed. apply (f_equal (@length N)) in Ed. rewrite skipn_length in Ed.
  assert (Hlen : length path = length a + length e) by (rewrite Ep, app_length; reflexivity).
  set (n := name_start walpha path) in *.
  assert (Hna2 : n <= length a).
  { destruct Hno as [E|[Hlt Hs]]; [pose proof (drive_len_le walpha path); lia|]. destruct (Nat.le_gt_cases n (length a)); [auto|].
    exfalso. rewrite Ep in Hs. unfold sep_at, at_ in Hs. rewrite app_nth2 in Hs by lia.
    assert (Hns : Forall (fun c => is_separator c = false) e).
    { rewrite Ee. constructor; [reflexivity|]. eapply Forall_impl; [|exact Hp]. cbn beta. unfold ext_stop, is_separator. intros x Hx. lia. }
    rewrite Forall_forall in Hns. rewrite Hns in Hs; [discriminate|]. apply nth_In. lia. }
  exists (skipn n a). rewrite En, Ep, skipn_app. f_equal. replace (n - length a) with 0 by lia. reflexivity.
Qed.

(** Appending an element to a directory: the name of the result is that element. *)
Lemma nosep_not_rooted walpha rhs : nosep rhs -> is_rooted walpha rhs = false.
Proof.
  intro H. unfold is_rooted. cbv zeta. assert (E : sep_at (past_drive walpha rhs) 0 = false).
  { rewrite <- drive_split, sep_at_skipn. apply nosep_at; auto. }
  rewrite E. apply andb_false_r.
Qed.
Lemma is_unc_none p : sep_at p 0 && sep_at p 1 = false -> is_unc p = None.
Proof. unfold is_unc. destruct (sep_at p 0), (sep_at p 1); try discriminate; reflexivity. Qed.
Lemma past_ssqs_none p : sep_at p 0 && sep_at p 1 = false -> past_ssqs p = p.
Proof. unfold past_ssqs. destruct (sep_at p 0), (sep_at p 1); try discriminate; reflexivity. Qed.

Lemma name_after walpha out s rhs : nosep rhs -> allsep s -> drive_len walpha (out ++ s ++ rhs) <= length (out ++ s) ->
  (s <> [] \/ drive_len walpha (out ++ s ++ rhs) = length (out ++ s) \/ sep_at out (length out - 1) = true /\ out <> []) ->
  get_name walpha (out ++ s ++ rhs) = rhs.
Proof.
  intros Hr Hs Hd Hsep. rewrite app_assoc in *. set (p := (out ++ s) ++ rhs) in *.
  destruct (get_name_ok walpha p) as (Hn & En & Hna & Hno). set (n := name_start walpha p) in *.
  assert (Hlen : length p = length (out ++ s) + length rhs) by (apply app_length).
  assert (Hle : n <= length (out ++ s)).
  { destruct Hno as [E|[Hlt Hsn]]; [lia|]. destruct (Nat.le_gt_cases n (length (out ++ s))); [auto|]. exfalso.
    unfold p, sep_at, at_ in Hsn. rewrite app_nth2 in Hsn by lia.
    pose proof (proj1 (nosep_at rhs) Hr (n - 1 - length (out ++ s))) as K. unfold sep_at, at_ in K. congruence. }
  assert (Hge : length (out ++ s) <= n).
  { destruct (Nat.le_gt_cases (length (out ++ s)) n); [auto|]. exfalso.
    assert (Hlast : sep_at p (length (out ++ s) - 1) = true).
    { destruct Hsep as [H1|[H1|[H1 H2]]].
      - destruct (exists_last H1) as (s' & c & ->). apply Forall_app in Hs as [_ Hs]. apply Forall_inv in Hs.
        unfold p. rewrite app_assoc, app_length. cbn [length]. rewrite Nat.add_sub. unfold sep_at, at_. rewrite <- app_assoc, app_nth2 by lia.
        rewrite Nat.sub_diag. cbn [app nth]. apply sep_b. exact Hs.
      - lia.
      - destruct s as [|c s] using rev_ind.
        + unfold p. rewrite app_nil_r in *. unfold sep_at, at_. rewrite app_nth1; [exact H1|]. destruct out; [contradiction|cbn [length]; lia].
        + clear IHs. apply Forall_app in Hs as [_ Hs]. apply Forall_inv in Hs.
          unfold p. rewrite app_assoc, app_length. cbn [length]. rewrite Nat.add_sub. unfold sep_at, at_. rewrite <- app_assoc, app_nth2 by lia.
          rewrite Nat.sub_diag. cbn [app nth]. apply sep_b. exact Hs. }
    rewrite Hna in Hlast by lia. discriminate. }
  rewrite En. replace n with (length (out ++ s)) by lia. unfold p. rewrite skipn_app, skipn_all, Nat.sub_diag. reflexivity.
Qed.

Theorem c29_append_name : forall walpha out rhs,
  (forall c, sep c -> walpha c = false) ->
  Forall (fun c => c <> 0%N) out ->
  out <> [] -> ~ (exists a b l, out = a :: b :: l /\ sep a /\ sep b) ->
  Forall (fun c => ~ sep c) rhs ->
  get_name walpha (append walpha out rhs) = rhs /\
  exists s, append walpha out rhs = out ++ s ++ rhs /\ Forall sep s.
Proof.
  intros walpha out rhs Hw Hz Ho Hu Hr. unfold append. rewrite nosep_not_rooted by exact Hr.
  assert (Hb : sep_at out 0 && sep_at out 1 = false).
  { destruct (sep_at out 0 && sep_at out 1) eqn:E; [|reflexivity]. apply andb_true_iff in E as [E1 E2]. exfalso. apply Hu.
    destruct out as [|a [|b l]]; [discriminate|discriminate|]. exists a, b, l. split; [reflexivity|]. split; apply sep_b; assumption. }
  rewrite is_unc_none, past_ssqs_none by exact Hb.
  assert (Hr0 : sep_at rhs 0 = false) by (apply nosep_at; auto). rewrite Hr0. cbn [negb]. rewrite andb_true_r. cbv zeta.
  destruct out as [|a l]; [contradiction|].
  set (drive := walpha (at_ (a :: l) 0) && (at_ (a :: l) 1 =? 58)%N && (at_ (a :: l) 2 =? 0)%N).
  set (last := sep_at (a :: l) (length (a :: l) - 1)).
  set (s := if negb last && negb drive then [92%N] else []).
  assert (Hs : allsep s) by (unfold s; destruct (negb last && negb drive); [constructor; [right; reflexivity|constructor]|constructor]).
  split; [|exists s; auto].
  (* the first two bytes *)
  assert (H01 : sep_at ((a :: l) ++ s ++ rhs) 0 && sep_at ((a :: l) ++ s ++ rhs) 1 = false).
  { change (sep_at ((a :: l) ++ s ++ rhs) 0) with (is_separator a). destruct (is_separator a) eqn:Ea; [|reflexivity]. cbn [andb].
    destruct l as [|b l].
    - unfold s. change last with (is_separator a). rewrite Ea. cbn [negb andb app]. exact Hr0.
    - change (is_separator b = false). change (is_separator a && is_separator b = false) in Hb. rewrite Ea in Hb. exact Hb. }
  assert (Hdl : drive_len walpha ((a :: l) ++ s ++ rhs) <= length ((a :: l) ++ s)).
  { unfold drive_len, past_drive. rewrite is_unc_none, past_ssqs_none by exact H01. cbv zeta.
    set (p := (a :: l) ++ s ++ rhs) in *. destruct (walpha (at_ p 0) && (at_ p 1 =? 58)%N) eqn:E; [|lia].
    rewrite skipn_length. rewrite app_length. apply andb_true_iff in E as [E1 E2]. apply N.eqb_eq in E2. destruct l as [|b l]; [|cbn [length]; lia].
    change (at_ p 0) with a in E1. unfold s in *. change last with (is_separator a) in *. destruct (is_separator a) eqn:Ea.
    - apply sep_b in Ea. rewrite Hw in E1 by exact Ea. discriminate.
    - unfold p in E2. replace drive with false in E2 by (unfold drive; cbn; rewrite andb_false_r; reflexivity). discriminate. }
  apply name_after; auto. destruct last eqn:El.
  - right. right. split; [exact El|discriminate].
  - destruct drive eqn:Ed; [|left; unfold s; rewrite ?El, ?Ed; discriminate]. right. left.
    assert (Es : s = []) by (unfold s; rewrite ?El, ?Ed; reflexivity). clearbody s. subst s.
    unfold drive in Ed. apply andb_true_iff in Ed as [Ed E3]. apply andb_true_iff in Ed as [E1 E2].
    destruct l as [|b l]; [discriminate|]. destruct l as [|c l].
    + unfold drive_len, past_drive. rewrite is_unc_none, past_ssqs_none by exact H01. cbv zeta. cbn [app].
      change (at_ (a :: b :: rhs) 0) with a. change (at_ [a; b] 0) with a in E1. rewrite E1.
      change (at_ (a :: b :: rhs) 1) with b. change (at_ [a; b] 1) with b in E2. rewrite E2. cbn [andb skipn length]. lia.
    + exfalso. apply N.eqb_eq in E3. change (at_ (a :: b :: c :: l) 2) with c in E3.
      exact (Forall_inv (Forall_inv_tail (Forall_inv_tail Hz)) E3).
Qed.

(** ** C30 *)

(** Going to the parent: the path is the parent, separators, the child, separators; the child is the last element
    and is empty only if there is no element after the drive; the drive stays; the result says whether the path has
    changed. *)
Theorem c30_parent : forall walpha path, exists s t,
  let '(parent, child, changed) := to_parent walpha path in
  path = parent ++ s ++ child ++ t /\ Forall sep s /\ Forall sep t /\ Forall (fun c => ~ sep c) child /\
  (changed = true <-> parent <> path) /\
  drive_len walpha path <= length parent /\
  (child = [] <-> Forall sep (past_drive walpha path)).
Proof.
  intros walpha path. destruct (to_parent_ok walpha path) as (e & c & ce & E & H1 & H2 & H3 & H4 & H5 & H6 & H7 & H8 & H9).
  destruct (root_end_ok walpha path) as [R1 R2].
  exists (slice e c path), (slice ce (length path) path). rewrite E. cbv zeta. split.
  { rewrite (slice3 path e c) at 1 by lia. do 2 f_equal.
    rewrite (slice3 (skipn c path) 0 (ce - c)) at 1 by (try rewrite skipn_length; lia).
    cbn [firstn app]. unfold slice. cbn [skipn]. rewrite Nat.sub_0_r. f_equal. rewrite <- skipn_add.
    replace (c + (ce - c)) with ce by lia. rewrite firstn_all2; [reflexivity|]. rewrite skipn_length. lia. }
  split; [apply slice_sep; exact H4|]. split; [apply slice_sep; exact H6|]. split; [apply slice_nosep; exact H5|].
  split.
  { rewrite negb_true_iff, Nat.eqb_neq. split; intros K K'; apply K.
    - rewrite <- K'. rewrite firstn_length. lia.
    - rewrite K'. apply firstn_all. }
  split; [rewrite firstn_length; lia|]. rewrite <- drive_split. split.
  - intro K. apply (f_equal (@length N)) in K. rewrite slice_len in K by lia. cbn in K.
    apply allsep_at. intros i Hi. rewrite skipn_length in Hi. rewrite sep_at_skipn.
    set (d := drive_len walpha path) in *. assert (c = root_end walpha path) by (apply H8; lia).
    destruct (Nat.lt_ge_cases (d + i) c); [apply R2; lia|apply H6; lia].
  - intro K. assert (c = ce).
    { destruct (Nat.eq_dec c ce); [auto|]. exfalso. assert (K1 : sep_at path c = false) by (apply H5; lia).
      pose proof (proj1 (allsep_at _) K (c - drive_len walpha path)) as K2. rewrite skipn_length, sep_at_skipn in K2.
      replace (drive_len walpha path + (c - drive_len walpha path)) with c in K2 by lia. rewrite K2 in K1 by lia. discriminate. }
    unfold slice. replace (ce - c) with 0 by lia. reflexivity.
Qed.

(** Going to the parent again and again. *)
Fixpoint climb (walpha : N -> bool) (n : nat) (path : list N) : list N :=
  match n with O => path | S k => climb walpha k (fst (fst (to_parent walpha path))) end.

(** It comes to an end after at most as many steps as the path is long, at a root: nothing but separators after the
    drive, and the path does not change any more. *)
Theorem c30_terminates : forall walpha path, let top := climb walpha (length path) path in
  snd (to_parent walpha top) = false /\ is_root walpha top = true /\ exists rest, path = top ++ rest.
Proof.
  intros walpha. assert (Hfix : forall path, fst (fst (to_parent walpha path)) = path -> is_root walpha path = true /\ snd (to_parent walpha path) = false).
  { intros path Hp. destruct (to_parent_ok walpha path) as (e & c & ce & E & H1 & H2 & H3 & H4 & H5 & H6 & H7 & H8 & H9).
    destruct (root_end_ok walpha path) as [R1 R2]. rewrite E in Hp |- *. cbn [fst snd] in *.
    assert (Ee : e = length path) by (apply (f_equal (@length N)) in Hp; rewrite firstn_length in Hp; lia).
    split; [|rewrite Ee, Nat.eqb_refl; reflexivity].
    assert (Hall : allsep (past_drive walpha path)).
    { rewrite <- drive_split. apply allsep_at. intros i Hi. rewrite skipn_length in Hi. rewrite sep_at_skipn. apply R2.
      rewrite <- H8 by lia. lia. }
    unfold is_root. cbv zeta. rewrite <- (app_nil_r (past_drive walpha path)). rewrite skip_sep_app by exact Hall. rewrite app_nil_r.
    cbn [skip_sep]. rewrite andb_true_r. destruct (past_drive walpha path) as [|x l]; [reflexivity|].
    apply orb_true_iff. right. apply sep_b. exact (Forall_inv Hall). }
  assert (H : forall n path, length path <= n -> let top := climb walpha n path in
     snd (to_parent walpha top) = false /\ is_root walpha top = true /\ exists rest, path = top ++ rest).
  { induction n as [|n IH]; intros path Hn; cbv zeta; cbn [climb].
    - destruct path; [|cbn in Hn; lia]. destruct (Hfix []) as [F1 F2].
      { destruct (to_parent_ok walpha []) as (e & c & ce & E & _). rewrite E. cbn [fst]. destruct e; reflexivity. }
      split; [exact F2|]. split; [exact F1|]. exists []. reflexivity.
    - destruct (to_parent_ok walpha path) as (e & c & ce & E & H1 & H2 & H3 & _).
      assert (Ep : fst (fst (to_parent walpha path)) = firstn e path) by (rewrite E; reflexivity).
      destruct (Nat.eq_dec e (length path)) as [He|He].
      + assert (Hp : fst (fst (to_parent walpha path)) = path) by (rewrite Ep, He; apply firstn_all). rewrite Hp.
        assert (Hc : forall k, climb walpha k path = path).
        { induction k as [|k IHk]; cbn [climb]; [reflexivity|]. rewrite Hp. exact IHk. }
        rewrite Hc. destruct (Hfix path Hp) as [F1 F2]. split; [exact F2|]. split; [exact F1|]. exists []. symmetry. apply app_nil_r.
      + rewrite Ep. destruct (IH (firstn e path)) as (I1 & I2 & rest & I3); [rewrite firstn_length; lia|].
        split; [exact I1|]. split; [exact I2|]. exists (rest ++ skipn e path). rewrite app_assoc, <- I3. symmetry. apply firstn_skipn. }
  intro path. apply H. lia.
Qed.

(** The root of a path without a drive is not kept: a rooted path becomes a relative one. *)
Definition ascii_alpha (c : N) : bool := ((65 <=? c) && (c <=? 90) || (97 <=? c) && (c <=? 122))%N.
Theorem c30_root_refuted : is_rooted ascii_alpha (bs "/one") = true /\
  to_parent ascii_alpha (bs "/one") = ([], bs "one", true) /\ is_rooted ascii_alpha [] = false.
Proof. vm_compute. auto. Qed.

(** Stripping separators at the end keeps the root. *)
Theorem c30_strip : forall walpha path, exists s,
  path = maybe_strip_last_separator walpha path ++ s /\ Forall sep s /\
  drive_len walpha path <= length (maybe_strip_last_separator walpha path) /\
  (sep_at path (drive_len walpha path) = true -> drive_len walpha path < length (maybe_strip_last_separator walpha path)).
Proof.
  intros walpha path. unfold maybe_strip_last_separator. cbv zeta. pose proof (drive_len_le walpha path) as Hd.
  set (d := drive_len walpha path) in *. set (st := if sep_at path d then S d else d).
  assert (Hst : d <= st <= length path /\ (sep_at path d = true -> d < st)).
  { subst st. destruct (sep_at path d) eqn:E; [apply sep_at_le in E; lia|]. split; [lia|discriminate]. }
  destruct (strip_down_ok path st (length path)) as (S1 & S2 & S3 & _). set (n := strip_down path st (length path)) in *.
  exists (skipn n path). split; [symmetry; apply firstn_skipn|]. split.
  { apply allsep_at. intros i Hi. rewrite skipn_length in Hi. rewrite sep_at_skipn. apply S3. lia. }
  rewrite firstn_length. split; [lia|]. intro H. destruct Hst as [Hst1 Hst2]. specialize (Hst2 H). lia.
Qed.

(** The extension of a share is not part of the name. *)
Theorem c29_share_extension_refuted : let p := bs "\\srv\shr.ext" in
  get_extension p = Some (bs ".ext") /\ get_name ascii_alpha p = [].
Proof. vm_compute. auto. Qed.

Example c29_example : let p := bs "c:\dir//sub\\name.tar.gz" in
  get_directory ascii_alpha p = bs "c:\dir//sub" /\ get_name ascii_alpha p = bs "name.tar.gz" /\
  get_extension p = Some (bs ".gz") /\ 3 <= length (past_drive ascii_alpha p) /\
  append ascii_alpha (bs "c:\dir") (bs "x") = bs "c:\dir\x" /\ append ascii_alpha (bs "c:") (bs "x") = bs "c:x" /\
  (forall c, sep c -> ascii_alpha c = false).
Proof. vm_compute. repeat (split; [first [reflexivity|lia]|]). intros c [->| ->]; reflexivity. Qed.
Example c30_example :
  to_parent ascii_alpha (bs "c:/one/two//") = (bs "c:/one", bs "two", true) /\
  to_parent ascii_alpha (bs "\\srv\shr\x") = (bs "\\srv\shr", bs "x", true) /\
  climb ascii_alpha 20 (bs "\\?\c:\one\two") = bs "\\?\c:\" /\
  maybe_strip_last_separator ascii_alpha (bs "c://") = bs "c:/".
Proof. vm_compute. auto. Qed.

Print Assumptions c29_recompose.
Print Assumptions c29_extension.
Print Assumptions c29_extension_of_name.
Print Assumptions c29_append_name.
Print Assumptions c29_share_extension_refuted.
Print Assumptions c30_parent.
Print Assumptions c30_terminates.
Print Assumptions c30_root_refuted.
Print Assumptions c30_strip.
