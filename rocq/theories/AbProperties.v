(** C89, C90: expanding abbreviated directories. *)
From Verif Require Import Base AbModel AbSpec AbProofs AbLoop.
Open Scope N_scope.

Lemma last_sep_app a sep tail : is_sep sep = true -> Forall (fun c => is_sep c = false /\ c <> 34) tail -> last_sep (a ++ sep :: tail) = Some (length a).
Proof.
  intros Hs Ht. assert (T : last_sep tail = None). { induction Ht as [|c t [H _] _ IH]; [reflexivity|]. cbn [last_sep]. rewrite IH, H. reflexivity. }
  induction a as [|c a IH]; cbn [app last_sep length]; [rewrite T, Hs; reflexivity|rewrite IH; reflexivity].
Qed.
Lemma strip_none l : Forall (fun c => c <> 34) l -> strip_quotes l = l.
Proof. unfold strip_quotes. induction 1 as [|c l H _ IH]; [reflexivity|]. cbn [filter]. unfold is_quote at 1. replace (c =? 34) with false by lia. cbn [negb]. rewrite IH. reflexivity. Qed.
(** a path on this computer: its drive is neither remote nor invalid *)
Definition local_path (is_unc : text -> bool) (past_ssqs : text -> nat) (bad_drive : N -> bool) (d : option N) (path : text) : Prop :=
  is_unc path = false /\ past_ssqs path = O /\ match d with Some c => letter c /\ bad_drive c = false | None => True end.
Lemma sep_34 c : is_sep c = true -> c <> 34 /\ c <> 58.
Proof. unfold is_sep. lia. Qed.
Lemma written_chars l : good_path l -> Forall (fun c => c <> 34) (written l).
Proof.
  assert (R : forall l, rest_ok l -> Forall (fun c => c <> 34) (written l)).
  { induction 1 as [|[s n] l' [(c & Hs & Hc) (_ & Hn & _)] _ IH]; [apply Forall_nil|]. cbn [fst snd] in *. subst s. change (written (([c], n) :: l')) with (c :: n ++ written l'). apply Forall_cons; [apply sep_34; exact Hc|]. apply Forall_app. split; [|exact IH]. apply (Forall_impl _ (P := good_char)); [|exact Hn]. intros x (_ & X & _). exact X. }
  destruct l as [|[s n] l]; [intros []|]. intros (Hs & (_ & Hn & _) & Hl). change (written ((s, n) :: l)) with ((s ++ n) ++ written l). apply Forall_app. split; [|exact (R l Hl)]. apply Forall_app. split; [destruct Hs as [->|(c & -> & Hc)]; [apply Forall_nil|apply Forall_cons; [apply sep_34; exact Hc|apply Forall_nil]]|]. apply (Forall_impl _ (P := good_char)); [|exact Hn]. intros x (_ & X & _). exact X.
Qed.
Lemma no_drive l sep tail : good_path l -> is_sep sep = true -> get_drive (written l ++ sep :: tail) = None.
Proof.
  intros Hl Hs. destruct l as [|[s n] l]; [destruct Hl|]. destruct Hl as (P1 & (P2 & P3 & _) & P4). change (written ((s, n) :: l)) with ((s ++ n) ++ written l). rewrite <- !app_assoc. destruct n as [|x n]; [congruence|]. inversion P3 as [|? ? (X1 & _ & X3 & _) P3']; subst.
  assert (H2 : forall a b r, b <> 58 -> get_drive (a :: b :: r) = None). { intros a b r Hb. unfold get_drive. destruct b as [|p]; [reflexivity|]. repeat (match goal with |- context [match ?p with xI _ => _ | xO _ => _ | xH => _ end] => destruct p end; try reflexivity). congruence. }
  destruct P1 as [->|(c & -> & Hc)]; cbn [app].
  - destruct n as [|y n]; cbn [app]; [|inversion P3' as [|? ? (_ & _ & Y & _) _]; subst; apply H2; exact Y]. pose proof (rest_head l P4) as R. destruct (written l) as [|d w]; cbn [app]; apply H2; apply sep_34; assumption.
  - apply H2. exact X3.
Qed.
Lemma expand_typed ls same cmp is_unc past_ssqs bad_drive d l sep tail : good_path l -> good_rest sep tail -> local_path is_unc past_ssqs bad_drive d (as_typed d l sep tail) ->
  expand ls same cmp is_unc past_ssqs bad_drive (as_typed d l sep tail) =
  match loop ls same cmp (S (length (drive_text d ++ written l))) (written l) (drive_text d) (length (drive_text d)) false with
  | None => Nil
  | Some (out, n, unique) => if unique && is_prefix out (as_typed d l sep tail) then Nil else
      let rest := skipn n (as_typed d l sep tail) in Expanded out (if is_sep (last out 0) then snd (span is_sep rest) else rest) unique
  end.
Proof.
  intros Hl [Hs Ht] (L1 & L2 & L3). assert (Hd : forall c, d = Some c -> letter c /\ bad_drive c = false) by (intros c ->; exact L3). unfold expand.
  assert (Q : strip_quotes (as_typed d l sep tail) = as_typed d l sep tail).
  { apply strip_none. unfold as_typed. apply Forall_app. split; [destruct d as [c|]; [|apply Forall_nil]; destruct (Hd c eq_refl) as [Lc _]; unfold letter in Lc; apply Forall_cons; [lia|]; apply Forall_cons; [lia|apply Forall_nil]|]. apply Forall_app. split; [exact (written_chars l Hl)|]. apply Forall_cons; [apply sep_34; exact Hs|]. apply (Forall_impl _ (P := fun c => is_sep c = false /\ c <> 34)); [|exact Ht]. intros c [_ X]. exact X. }
  rewrite Q. replace (last_sep (as_typed d l sep tail)) with (Some (length (drive_text d ++ written l))) by (unfold as_typed; rewrite app_assoc; symmetry; apply last_sep_app; assumption).
  assert (W : (0 < length (written l))%nat). { destruct l as [|[s n] l']; [destruct Hl|]. destruct Hl as (_ & P & _). rewrite written_cons. pose proof (name_pos n P). lia. }
  destruct (length (drive_text d ++ written l)) as [|len] eqn:El; [rewrite app_length in El; lia|]. rewrite L1, L2. change (skipn 0 (as_typed d l sep tail)) with (as_typed d l sep tail). change (firstn 0 (as_typed d l sep tail)) with (@nil N). cbn [app]. cbv zeta.
  assert (G : get_drive (as_typed d l sep tail) = d). { unfold as_typed. destruct d as [c|]; cbn [drive_text app]; [|apply no_drive; assumption]. cbn [get_drive]. destruct (Hd c eq_refl) as [Lc _]. unfold letter in Lc. replace (((65 <=? c) && (c <=? 90)) || ((97 <=? c) && (c <=? 122))) with true by lia. reflexivity. }
  rewrite G. replace (match d with Some c => bad_drive c | None => false end) with false by (destruct d as [c|]; [destruct (Hd c eq_refl) as [_ X]; rewrite X; reflexivity|reflexivity]).
  change (match d with Some c => [c; 58] | None => [] end) with (drive_text d). rewrite <- El. replace (length (drive_text d ++ written l) <=? length (drive_text d))%nat with false by (rewrite app_length; symmetry; apply Nat.leb_gt; lia).
  replace (skipn (length (drive_text d)) (firstn (length (drive_text d ++ written l)) (as_typed d l sep tail))) with (written l); [reflexivity|]. unfold as_typed. rewrite app_assoc, firstn_app, firstn_all, Nat.sub_diag. cbn [firstn]. rewrite app_nil_r, skipn_app, skipn_all, Nat.sub_diag. reflexivity.
Qed.

(** C89: directories that are clear are expanded *)
Theorem expands_unique : forall ls same cmp is_unc past_ssqs bad_drive d l sep tail out,
  good_fs ls same -> good_chars same cmp -> good_path l -> good_rest sep tail -> local_path is_unc past_ssqs bad_drive d (as_typed d l sep tail) ->
  sure ls same (drive_text d) l out -> out <> drive_text d ++ written l ->
  expand ls same cmp is_unc past_ssqs bad_drive (as_typed d l sep tail) = Expanded out (sep :: tail) true.
Proof.
  intros ls same cmp is_unc past_ssqs bad_drive d l sep tail out Hg Hc Hl Hr Hp Hs Hne. rewrite expand_typed by assumption. rewrite (loop_sure ls same cmp Hg Hc _ _ _ Hs (or_introl Hl)) by (rewrite app_length; lia). destruct l as [|c l]; [destruct Hl|]. cbn [andb]. set (l0 := c :: l) in *.
  destruct (sure_out ls same Hg _ _ _ Hs) as (w & -> & H1 & H2). unfold as_typed at 1. rewrite prefix_app. destruct (is_prefix w (written l0 ++ sep :: tail)) eqn:E; [exfalso; apply Hne; rewrite (H1 (or_introl Hl) sep tail (proj1 Hr) E); reflexivity|].
  cbv zeta. rewrite (H2 ltac:(discriminate)). f_equal. unfold as_typed. rewrite app_assoc, skipn_app, app_length. rewrite skipn_all2 by (rewrite app_length; lia). rewrite Nat.sub_diag. reflexivity.
Qed.
(** to the one path that what was typed can mean *)
Theorem expands_as_meant : forall ls same base l out, good_fs ls same -> sure ls same base l out -> meant ls same base l out /\ forall out', meant ls same base l out' -> out' = out.
Proof.
  intros ls same base l out Hg. induction 1 as [base|base s n l e out Hch Hs IH]; [split; [constructor|]; inversion 1; reflexivity|]. destruct IH as [I1 I2]. destruct Hch as [Hi Ho]. split.
  - apply (m_cons ls same base s n l e out Hi); [|exact I1]. intros (e' & He' & Hw). destruct Ho as [Ho|Ho]; [exact Ho|]. rewrite Ho in He'. destruct He' as [->|[]]. exact Hw.
  - intros out' Hm. inversion Hm as [|b s0 n0 l0 e' o' Hi' Hw' Hm' E1 E2 E3]; subst. assert (e' = e); [|subst e'; exact (I2 _ Hm')]. destruct Ho as [Ho|Ho]; [|rewrite Ho in Hi'; destruct Hi' as [->|[]]; reflexivity].
    specialize (Hw' ltac:(exists e; auto)). destruct Hg as [_ Hg]. destruct (candidates ls same (base ++ s) n) as [|e0 r] eqn:E; [destruct Hi|]. rewrite (Hg _ _ e e0 r E Hi Ho), (Hg _ _ e' e0 r E Hi' Hw'). reflexivity.
Qed.
(** nothing is changed if it is expanded already, or if one of the directories does not exist *)
Theorem expands_nothing : forall ls same cmp is_unc past_ssqs bad_drive d l sep tail,
  good_fs ls same -> good_chars same cmp -> good_path l -> good_rest sep tail -> local_path is_unc past_ssqs bad_drive d (as_typed d l sep tail) ->
  sure ls same (drive_text d) l (drive_text d ++ written l) \/ lost ls same (drive_text d) l -> expand ls same cmp is_unc past_ssqs bad_drive (as_typed d l sep tail) = Nil.
Proof.
  intros ls same cmp is_unc past_ssqs bad_drive d l sep tail Hg Hc Hl Hr Hp [Hs|Hs]; rewrite expand_typed by assumption.
  - rewrite (loop_sure ls same cmp Hg Hc _ _ _ Hs (or_introl Hl)) by (rewrite app_length; lia). destruct l as [|c l]; [destruct Hl|]. unfold as_typed at 1. rewrite app_assoc, prefix_self. reflexivity.
  - rewrite (loop_lost ls same cmp Hg Hc _ _ Hs Hl) by (rewrite app_length; lia). reflexivity.
Qed.
(** one of these is always the case, or several directories can be meant *)
Theorem expands_cases : forall ls same l base, (exists out, sure ls same base l out) \/ lost ls same base l \/ exists dir n rest, several ls same base l dir n rest.
Proof.
  intros ls same. induction l as [|[s n] l IH]; intro base; [left; exists base; constructor|].
  assert (G : forall e, chosen ls same (base ++ s) n e -> (exists out, sure ls same base ((s, n) :: l) out) \/ lost ls same base ((s, n) :: l) \/ exists dir n' rest, several ls same base ((s, n) :: l) dir n' rest).
  { intros e He. destruct (IH (base ++ s ++ e_name e)) as [(out & H)|[H|(dir & n' & rest & H)]]; [left; exists out; exact (s_cons _ _ _ _ _ _ e _ He H)|right; left; exact (l_next _ _ _ _ _ _ e He H)|right; right; exists dir, n', rest; exact (v_next _ _ _ _ _ _ e _ _ _ He H)]. }
  destruct (existsb (fun e => whole_name same n (e_name e)) (candidates ls same (base ++ s) n)) eqn:E.
  - apply existsb_exists in E. destruct E as (e & He & Hw). apply (G e). split; [exact He|left; exact Hw].
  - destruct (candidates ls same (base ++ s) n) as [|e1 [|e2 r]] eqn:Ec; [right; left; apply l_here; exact Ec| |].
    + apply (G e1). split; [rewrite Ec; left; reflexivity|right; exact Ec].
    + right. right. exists (base ++ s), n, l. apply v_here; [rewrite Ec; cbn; lia|]. intros e He. destruct (whole_name same n (e_name e)) eqn:Ew; [|reflexivity]. exfalso. rewrite Ec in He. assert (existsb (fun e => whole_name same n (e_name e)) (e1 :: e2 :: r) = true) by (apply existsb_exists; exists e; auto). congruence.
Qed.

(** C90: if several can be meant, what was typed is extended by what they have in common.  Partial: by what the first two have in common; if there are more, some may be excluded (see the refutation).  It is the longest such text if no files start with what was typed *)
Theorem expands_common_partial : forall ls same cmp is_unc past_ssqs bad_drive d l sep tail dir n rest,
  good_fs ls same -> good_chars same cmp -> good_path l -> good_rest sep tail -> local_path is_unc past_ssqs bad_drive d (as_typed d l sep tail) ->
  several ls same (drive_text d) l dir n rest ->
  exists t, expand ls same cmp is_unc past_ssqs bad_drive (as_typed d l sep tail) = Expanded (dir ++ t) (written rest ++ sep :: tail) false /\ starts cmp n t = true /\
    forall e1 e2 more, candidates ls same dir n = e1 :: e2 :: more -> starts cmp t (e_name e1) = true /\ starts cmp t (e_name e2) = true /\
      ((forall e, In e (ls dir) -> starts same n (e_name e) = true -> e_dir e = true) -> more = [] -> forall k, common cmp k (e_name e1) (e_name e2) -> (k <= length t)%nat).
Proof.
  intros ls same cmp is_unc past_ssqs bad_drive d l sep tail dir n rest Hg Hc Hl Hr Hp Hs. rewrite expand_typed by assumption. destruct (loop_several ls same cmp Hg Hc _ _ _ _ _ Hs Hl (S (length (drive_text d ++ written l))) (length (drive_text d)) false) as (t & m & A & (B0 & B1 & B2) & (a & C1 & C2) & D); [rewrite app_length; lia|].
  rewrite A. cbn [andb]. cbv zeta. exists t. split; [|split; [exact B1|exact B2]].
  assert (Ht : t <> []). { intros ->. unfold starts in B1. apply andb_prop in B1. destruct B1 as [B1 _]. pose proof (name_pos n D). cbn in B1. lia. }
  assert (R : skipn (length (drive_text d) + m) (as_typed d l sep tail) = written rest ++ sep :: tail). { unfold as_typed. rewrite C1, C2, <- app_length, <- app_assoc, app_assoc, skipn_app, skipn_all, Nat.sub_diag. reflexivity. }
  rewrite R. replace (is_sep (last (dir ++ t) 0)) with false; [reflexivity|]. symmetry.
  destruct (exists_last Ht) as (u & z & ->). rewrite app_assoc, last_last. apply Forall_app in B0. destruct B0 as [_ B0]. inversion B0. assumption.
Qed.

(** ** Examples: the file system of the documentation *)
Definition str (s : string) : text := map N_of_ascii (list_ascii_of_string s).
Definition lower (c : N) : N := if (65 <=? c) && (c <=? 90) then c + 32 else c.
Definition no_case (x y : N) : bool := lower x =? lower y.
Definition text_eqb (a b : text) : bool := (length a =? length b)%nat && is_prefix a b.
Definition dirs (l : list string) : list entry := map (fun s => mkE (str s) [] true) l.
Definition docs_fs (dir : text) : list entry := if text_eqb dir (str "d:\") then dirs ["bag"; "bookkeeper"; "bookkeeping"; "box"; "boxes"]%string else [].
Definition none (t : text) : bool := false.
Definition zero (t : text) : nat := O.
Definition fine (c : N) : bool := false.
Definition run (ls : text -> list entry) (s : string) : result := expand ls no_case no_case none zero fine (str s).
(** in such a list a name comes before those it starts *)
Fixpoint in_order (l : list text) : bool := match l with [] => true | x :: l' => forallb (fun y => negb (starts no_case y x)) l' && in_order l' end.
Lemma no_case_equiv : equivalence no_case.
Proof. unfold no_case. split; [intro x; apply N.eqb_refl|]. split; [intros x y; apply N.eqb_sym|]. intros x y z A B. apply N.eqb_eq in A, B. apply N.eqb_eq. congruence. Qed.
Lemma chars_ok : good_chars no_case no_case.
Proof. split; [exact no_case_equiv|]. split; [|split; [exact no_case_equiv|auto]]. unfold no_case, lower. intros c H. destruct ((65 <=? c) && (c <=? 90)) eqn:E; cbn in H; lia. Qed.
Lemma whole_starts n a b : whole_name no_case n a = true -> starts no_case n b = true -> starts no_case a b = true.
Proof.
  unfold whole_name, starts, pairwise. intros H1 H2. apply andb_prop in H1. apply andb_prop in H2. destruct H1 as [L1 P1], H2 as [L2 P2]. apply andb_true_intro. split; [lia|]. revert a b L1 L2 P1 P2. induction n as [|x n IH]; intros [|y a] [|z b] L1 L2 P1 P2; try reflexivity; try discriminate. cbn [length combine forallb fst snd] in *. apply andb_prop in P1. apply andb_prop in P2. destruct P1 as [P1 Q1], P2 as [P2 Q2]. apply andb_true_intro. split; [|apply IH; [lia|lia|assumption|assumption]]. unfold no_case in *. apply N.eqb_eq in P1, P2. apply N.eqb_eq. congruence.
Qed.
Lemma order_ok l n e e' r : in_order (map e_name l) = true -> filter (fun e => e_dir e && starts no_case n (e_name e)) l = e' :: r -> In e (e' :: r) -> whole_name no_case n (e_name e) = true -> e = e'.
Proof.
  intros Ho Hf Hi Hw. destruct Hi as [->|Hi]; [reflexivity|]. exfalso. revert Ho Hf. induction l as [|x l IH]; intros Ho Hf; [discriminate|]. cbn [map in_order] in Ho. apply andb_prop in Ho. destruct Ho as [O1 O2]. cbn [filter] in Hf. destruct (e_dir x && starts no_case n (e_name x)) eqn:E; [|exact (IH O2 Hf)].
  injection Hf as -> Hf. rewrite <- Hf in Hi. apply filter_In in Hi. destruct Hi as [Hi _]. rewrite forallb_forall in O1. specialize (O1 (e_name e) (in_map e_name l e Hi)). apply andb_prop in E. rewrite (whole_starts n _ _ Hw (proj2 E)) in O1. discriminate O1.
Qed.
Ltac chars_in := apply Forall_forall; intros c Hc; vm_compute in Hc; unfold good_char; repeat (destruct Hc as [<-|Hc]; [first [reflexivity|split; [reflexivity|lia]]|]); destruct Hc.
Lemma docs_fs_ok : good_fs docs_fs no_case.
Proof.
  split.
  - intro dir. unfold docs_fs. destruct (text_eqb dir (str "d:\")); [|apply Forall_nil]. repeat (apply Forall_cons; [split; [discriminate|]; split; [chars_in|reflexivity]|]). apply Forall_nil.
  - intros dir n e e' l. unfold candidates, docs_fs. destruct (text_eqb dir (str "d:\")); [|discriminate]. apply order_ok. vm_compute. reflexivity.
Qed.
Definition typed_name (s : string) : list comp := [(str "\", str s)].
Ltac path_ok := split; [right; exists 92; split; reflexivity|]; split; [|apply Forall_nil]; split; [discriminate|]; split; [chars_in|discriminate].
Example docs_path_ok : good_path (typed_name "ba") /\ good_path (typed_name "bo") /\ good_rest 92 (str "file") /\ local_path none zero fine (Some 100) (str "d:\ba\file").
Proof.
  split; [path_ok|]. split; [path_ok|]. split; [split; [reflexivity|chars_in]|]. split; [reflexivity|]. split; [reflexivity|]. split; [unfold letter; lia|reflexivity].
Qed.
Example expands_unique_ex : sure docs_fs no_case (str "d:") (typed_name "ba") (str "d:\bag") /\ run docs_fs "d:\ba\file" = Expanded (str "d:\bag") (str "\file") true.
Proof.
  split; [|vm_compute; reflexivity]. apply (s_cons _ _ _ _ _ _ (mkE (str "bag") [] true)); [split; [vm_compute; left; reflexivity|right; vm_compute; reflexivity]|]. apply s_nil.
Qed.
Example expands_common_ex : several docs_fs no_case (str "d:") (typed_name "boo") (str "d:\") (str "boo") [] /\ run docs_fs "d:\boo\file" = Expanded (str "d:\bookkeep") (str "\file") false.
Proof.
  split; [|vm_compute; reflexivity]. apply (v_here docs_fs no_case (str "d:") (str "\") (str "boo") []); [vm_compute; lia|]. intros e He. vm_compute in He. destruct He as [<-|[<-|[]]]; reflexivity.
Qed.
Example expands_nothing_ex : sure docs_fs no_case (str "d:") (typed_name "boxes") (str "d:\boxes") /\ lost docs_fs no_case (str "d:") (typed_name "x") /\ run docs_fs "d:\boxes\file" = Nil /\ run docs_fs "d:\x\file" = Nil.
Proof.
  split; [apply (s_cons _ _ _ _ _ _ (mkE (str "boxes") [] true)); [split; [vm_compute; left; reflexivity|right; vm_compute; reflexivity]|apply s_nil]|]. split; [apply l_here; vm_compute; reflexivity|]. split; vm_compute; reflexivity.
Qed.
Print Assumptions expands_unique.
Print Assumptions expands_as_meant.
Print Assumptions expands_nothing.
Print Assumptions expands_cases.
Print Assumptions expands_common_partial.

(** ** What does not hold *)
(** if more than two can be meant, what comes out excludes some of them; the documentation has this very example, with d:\bo as result *)
Theorem expands_common_refuted : ~ (forall ls same cmp is_unc past_ssqs bad_drive d l sep tail dir n rest out rest',
  good_fs ls same -> good_chars same cmp -> good_path l -> good_rest sep tail -> local_path is_unc past_ssqs bad_drive d (as_typed d l sep tail) ->
  several ls same (drive_text d) l dir n rest -> expand ls same cmp is_unc past_ssqs bad_drive (as_typed d l sep tail) = Expanded out rest' false ->
  forall e, In e (candidates ls same dir n) -> starts cmp out (dir ++ e_name e) = true).
Proof.
  intro H. destruct docs_path_ok as (_ & P & R & L). assert (X : starts no_case (str "d:\bookkeep") (str "d:\" ++ str "box") = true).
  { apply (H docs_fs no_case no_case none zero fine (Some 100) (typed_name "bo") 92 (str "file") (str "d:\") (str "bo") [] (str "d:\bookkeep") (str "\file") docs_fs_ok chars_ok P R L) with (e := mkE (str "box") [] true).
    - apply (v_here docs_fs no_case (str "d:") (str "\") (str "bo") []); [vm_compute; lia|]. intros e He. vm_compute in He. destruct He as [<-|[<-|[<-|[<-|[]]]]]; reflexivity.
    - vm_compute. reflexivity.
    - vm_compute. auto. }
  vm_compute in X. discriminate X.
Qed.
(** documented: d:\box\file gives "d:\box", "\file", false *)
Theorem documented_exact_refuted : run docs_fs "d:\box\file" <> Expanded (str "d:\box") (str "\file") false.
Proof. vm_compute. discriminate. Qed.
(** with quotes, the rest of the path is taken from the wrong place (quotes are not counted): after expansion to d:\bag the rest begins with the a that is part of what was expanded *)
Theorem quoted_rest_refuted : exists input out rest, expand docs_fs no_case no_case none zero fine input = Expanded out rest true /\ strip_quotes input = str "d:\ba\file" /\ strip_quotes rest <> str "\file".
Proof. exists (34 :: str "d:\ba" ++ 34 :: str "\file"), (str "d:\bag"), (97 :: 34 :: str "\file"). split; [vm_compute; reflexivity|]. split; [vm_compute; reflexivity|discriminate]. Qed.
(** "." is taken for the beginning of a name: .\h\x becomes .git\hooks\x *)
Definition dot_fs (dir : text) : list entry := if text_eqb dir [] then dirs ["."; ".."; ".git"; "house"]%string else if text_eqb dir (str ".git\") then dirs ["."; ".."; "hooks"]%string else [].
Theorem dot_directory_refuted : run dot_fs ".\h\x" = Expanded (str ".git\hooks") (str "\x") true.
Proof. vm_compute. reflexivity. Qed.
(** file systems that do not sort: box is there, but d:\box is not expanded to it if boxes comes first *)
Definition fat_fs (dir : text) : list entry := if text_eqb dir (str "d:\") then dirs ["boxes"; "box"]%string else if text_eqb dir (str "d:\box\") then dirs ["inner"]%string else [].
Theorem unsorted_refuted : sure fat_fs no_case (str "d:") [(str "\", str "box"); (str "\", str "in")] (str "d:\box\inner") /\ run fat_fs "d:\box\in\file" = Expanded (str "d:\box") (str "\in\file") false.
Proof.
  split; [|vm_compute; reflexivity]. apply (s_cons _ _ _ _ _ _ (mkE (str "box") [] true)); [split; [vm_compute; auto|left; reflexivity]|]. apply (s_cons _ _ _ _ _ _ (mkE (str "inner") [] true)); [split; [vm_compute; auto|right; vm_compute; reflexivity]|]. apply s_nil.
Qed.
(** short names are found too: what was typed is cut off.  d:\ab becomes d:\a *)
Definition short_fs (dir : text) : list entry := if text_eqb dir (str "d:\") then [mkE (str "a.b.d") (str "AB~1.D") true; mkE (str "abc") [] true] else [].
Theorem short_name_refuted : run short_fs "d:\ab\file" = Expanded (str "d:\a") (str "\file") false.
Proof. vm_compute. reflexivity. Qed.
(** so it is if text is compared with case, as with match.ignore_case off *)
Definition case_fs (dir : text) : list entry := if text_eqb dir (str "d:\") then dirs ["fOo"; "fox"]%string else [].
Theorem case_cut_refuted : expand case_fs no_case N.eqb none zero fine (str "d:\fo\file") = Expanded (str "d:\f") (str "\file") false.
Proof. vm_compute. reflexivity. Qed.
(** two separators: not unique, though nothing is abbreviated *)
Theorem two_separators_refuted : run docs_fs "d:\\file" = Expanded (str "d:\") (str "file") false.
Proof. vm_compute. reflexivity. Qed.
(** a file can keep the text from being as long as it could be *)
Definition file_fs (dir : text) : list entry := if text_eqb dir (str "d:\") then [mkE (str "foo.txt") [] false; mkE (str "Foobar1") [] true; mkE (str "Foobar2") [] true; mkE (str "foot.txt") [] false] else [].
Theorem file_shortens_refuted : run file_fs "d:\foo\x" = Expanded (str "d:\foo") (str "\x") false /\ run (fun d => filter e_dir (file_fs d)) "d:\foo\x" = Expanded (str "d:\Foobar") (str "\x") false.
Proof. vm_compute. auto. Qed.
