(** wcwidth_iter over a text with faces; what the display relies on holds for it. *)
From Verif Require Import Base UtfModel UtfSpec UtfProofs EscSpec WidthModel WidthProofs WcModel WcSpec WcProofs WcProperties DispModel DispSpec DispTerm.
Open Scope N_scope.

(** the number of code points of a display character, from its bytes *)
Definition ncp (b : list N) : nat := length (filter (fun x => negb ((128 <=? x) && (x <? 192))) b).
Fixpoint cut (l : list (nat * Z)) (t : text) : list DispModel.cluster := match l with [] => [] | (n, w) :: l' => (firstn n t, w) :: cut l' (skipn n t) end.
Definition segs (ce : bool) (cps : list N) : list (nat * Z) :=
  match chars ce (mk_wcwidth ce 1) (bytes_of cps) with Some (l, _) => map (fun g : glyph => (ncp (fst (fst g)), snd (fst g))) l | None => [] end.
(** [ce]: g_color_emoji *)
Definition wc_gl (ce : bool) (t : text) : list DispModel.cluster := cut (segs ce (map fst t)) t.
Definition wc_solid (ce : bool) (c : N) : bool :=
  negb (is_variant_selector c) && negb (zwj =? c) && negb (joins is_possible_unqualified_half_width is_emoji c) && negb (extends ce (mk_wcwidth ce 1) is_variant_selector c) && negb (regional c).

Lemma ncp_app a b : ncp (a ++ b) = (ncp a + ncp b)%nat.
Proof. unfold ncp. rewrite filter_app, app_length. reflexivity. Qed.
Lemma ncp_utf8 v : scalar v -> ncp (utf8 v) = 1%nat.
Proof.
  intro H. unfold scalar in H. unfold utf8.
  destruct (v <? 128) eqn:E1; [unfold ncp; cbn [filter length]; replace ((128 <=? v) && (v <? 192)) with false by lia; reflexivity|].
  destruct (v <? 2048) eqn:E2; [|destruct (v <? 65536) eqn:E3]; unfold ncp; cbn [filter].
  - replace ((128 <=? 192 + v / 64) && (192 + v / 64 <? 192)) with false by lia. replace ((128 <=? 128 + v mod 64) && (128 + v mod 64 <? 192)) with true by lia. reflexivity.
  - replace ((128 <=? 224 + v / 4096) && (224 + v / 4096 <? 192)) with false by lia. replace ((128 <=? 128 + v / 64 mod 64) && (128 + v / 64 mod 64 <? 192)) with true by lia. replace ((128 <=? 128 + v mod 64) && (128 + v mod 64 <? 192)) with true by lia. reflexivity.
  - replace ((128 <=? 240 + v / 262144) && (240 + v / 262144 <? 192)) with false by lia. replace ((128 <=? 128 + v / 4096 mod 64) && (128 + v / 4096 mod 64 <? 192)) with true by lia. replace ((128 <=? 128 + v / 64 mod 64) && (128 + v / 64 mod 64 <? 192)) with true by lia. replace ((128 <=? 128 + v mod 64) && (128 + v mod 64 <? 192)) with true by lia. reflexivity.
Qed.
Lemma ncp_bytes u : Forall scalar u -> ncp (bytes_of u) = length u.
Proof. unfold bytes_of. induction 1 as [|v u Hv H IH]; [reflexivity|]. cbn [flat_map length]. rewrite ncp_app, IH, ncp_utf8 by exact Hv. reflexivity. Qed.

Section Wc.
Variable ce : bool.
Local Notation wcw := (mk_wcwidth ce 1).
Local Notation cls := (clusters ce wcw is_variant_selector is_possible_unqualified_half_width is_emoji).
Local Notation cl1 := (WcSpec.cluster ce wcw is_variant_selector is_possible_unqualified_half_width is_emoji).
Definition sizes (l : list glyph) : list (nat * Z) := map (fun g : glyph => (length (fst (fst g)), snd (fst g))) l.

Lemma segs_of cps l : Forall scalar cps -> cls cps l -> segs ce cps = sizes l.
Proof.
  intros F C. unfold segs. destruct (c52_clusters ce wcw cps F) as (l0 & E & C0 & U). rewrite E. rewrite <- (U l C). unfold in_bytes, sizes. rewrite map_map. apply map_ext_in. intros [[u w] e] Hin. cbn [fst snd]. f_equal. apply ncp_bytes.
  pose proof (clusters_concat _ _ _ _ _ _ _ C) as Ec. rewrite Forall_forall in F |- *. intros x Hx. apply F. rewrite <- Ec. apply in_concat. exists u. split; [|exact Hx]. apply in_map_iff. exists (u, w, e). auto.
Qed.
Lemma segs_some cps : Forall scalar cps -> exists l, cls cps l /\ segs ce cps = sizes l.
Proof. intro F. destruct (c52_clusters ce wcw cps F) as (l & E & C & U). exists l. split; [exact C|]. apply segs_of; assumption. Qed.
Lemma clusters_rest cps l k : cls cps l -> cls (concat (map (fun g : glyph => fst (fst g)) (skipn k l))) (skipn k l).
Proof.
  intro C. revert k. induction C as [|u r w e l C0 C IH]; intro k; [rewrite skipn_nil; constructor|]. destruct k as [|k]; [|cbn [skipn]; apply IH].
  cbn [skipn map concat fst]. assert (Ec : concat (map (fun g : glyph => fst (fst g)) l) = r) by exact (clusters_concat _ _ _ _ _ _ _ C). rewrite Ec. constructor; assumption.
Qed.
Lemma cut_concat l t : fold_right (fun g n => (fst g + n)%nat) O l = length t -> concat (map fst (cut l t)) = t.
Proof.
  revert t. induction l as [|[n w] l IH]; intros t H; cbn [fold_right fst cut map concat] in *; [destruct t; [reflexivity|discriminate]|]. rewrite IH by (rewrite skipn_length; lia). apply firstn_skipn.
Qed.
Lemma sizes_sum l : fold_right (fun g n => (fst g + n)%nat) O (sizes l) = length (concat (map (fun g : glyph => fst (fst g)) l)).
Proof. induction l as [|[[u w] e] l IH]; [reflexivity|]. cbn [sizes map fold_right fst snd concat]. rewrite app_length. unfold sizes in IH. rewrite IH. reflexivity. Qed.
Lemma cut_firstn l t k : cut (firstn k l) (concat (map fst (firstn k (cut l t)))) = firstn k (cut l t).
Proof.
  revert t k. induction l as [|[n w] l IH]; intros t [|k]; cbn [firstn cut map concat]; try reflexivity. cbn [fst].
  destruct (Nat.le_gt_cases n (length t)) as [L|L].
  - rewrite firstn_app_l by (rewrite firstn_length; lia). rewrite skipn_app_l by (rewrite firstn_length; lia). rewrite IH. reflexivity.
  - assert (Et : skipn n t = []) by (apply skipn_all2; lia). rewrite Et. assert (Z : forall m j, concat (map fst (firstn j (cut m []))) = []) by (induction m as [|[a b] m IHm]; intros [|j]; cbn [firstn cut map concat]; try reflexivity; rewrite firstn_nil, skipn_nil; cbn [fst app]; apply IHm). rewrite Z, app_nil_r. rewrite (firstn_all2 t) by lia. rewrite (firstn_all2 t) by lia. rewrite Et. rewrite <- (Z l k). rewrite IH, Z. reflexivity.
Qed.
Lemma cut_app a b s t : fold_right (fun g n => (fst g + n)%nat) O a = length s -> cut (a ++ b) (s ++ t) = cut a s ++ cut b t.
Proof.
  revert s. induction a as [|[n w] a IH]; intros s H; cbn [fold_right fst cut app] in *; [destruct s; [reflexivity|discriminate]|].
  rewrite firstn_app, skipn_app. replace (n - length s)%nat with O by lia. cbn [firstn skipn]. rewrite app_nil_r. rewrite IH by (rewrite skipn_length; lia). reflexivity.
Qed.
Lemma cut_len l t : length (cut l t) = length l.
Proof. revert t. induction l as [|[n w] l IH]; intro t; [reflexivity|]. cbn [cut length]. rewrite IH. reflexivity. Qed.
Lemma map_fst_cut l t : map snd (cut l t) = map snd l.
Proof. revert t. induction l as [|[n w] l IH]; intro t; [reflexivity|]. cbn [cut map snd]. rewrite IH. reflexivity. Qed.
(** the text of the code points of some of the characters *)
Lemma cut_text l : forall t, fold_right (fun g n => (fst g + n)%nat) O (sizes l) = length t -> map fst t = concat (map (fun g : glyph => fst (fst g)) l) ->
  forall k, map fst (concat (map fst (firstn k (cut (sizes l) t)))) = concat (map (fun g : glyph => fst (fst g)) (firstn k l)) /\ map fst (concat (map fst (skipn k (cut (sizes l) t)))) = concat (map (fun g : glyph => fst (fst g)) (skipn k l)).
Proof.
  induction l as [|[[u w] e] l IH]; intros t H E k; cbn [sizes map fold_right fst snd] in H.
  - destruct t; [|discriminate]. destruct k; cbn; auto.
  - cbn [map concat fst] in E. assert (Ef : map fst (firstn (length u) t) = u) by (rewrite <- firstn_map, E; apply firstn_app_l; reflexivity). assert (Es : map fst (skipn (length u) t) = concat (map (fun g : glyph => fst (fst g)) l)) by (rewrite <- skipn_map, E; apply skipn_app_l; reflexivity).
    specialize (IH (skipn (length u) t)). rewrite skipn_length in IH. specialize (IH ltac:(unfold sizes; lia) Es).
    destruct k as [|k]; cbn [sizes map cut firstn skipn concat fst snd].
    + split; [reflexivity|]. rewrite map_app. apply f_equal2; [exact Ef|]. destruct (IH O) as [_ X]. exact X.
    + split; [|apply IH]. rewrite map_app. apply f_equal2; [exact Ef|]. apply IH.
Qed.
Lemma wcw_pos c : scalar c -> (wcw c < 0 \/ 1 <= wcw c)%Z.
Proof. intro H. assert (c <> 0) by (unfold scalar in H; lia). pose proof (c61_range ce c H0) as R. cbn [In] in R. destruct R as [R|[R|[R|[]]]]; lia. Qed.
Lemma cluster_wid u r w e : cl1 u r w e -> scalar (hd 0 u) -> (w < 0 \/ 1 <= w)%Z.
Proof.
  intros C S. destruct C as [c r Hc|a b r On Wa Ra Rb|c t r w On Wc Rc Sc T|c t r Wc P F S']; cbn [hd] in S.
  - lia.
  - lia.
  - right. unfold widen. destruct (_ || _); lia.
  - right. pose proof (wcw_pos c S). unfold widen. destruct (existsb _ _); lia.
Qed.

Definition ascii_list : list N := map N.of_nat (seq 1 127).
Lemma ascii_in c : 0 < c < 128 -> In c ascii_list.
Proof. intro H. unfold ascii_list. apply in_map_iff. exists (N.to_nat c). split; [lia|]. apply in_seq. lia. Qed.
End Wc.
Lemma ascii_solid ce c : 0 < c < 128 -> wc_solid ce c = true.
Proof.
  intro H. assert (A : forall ce, forallb (wc_solid ce) ascii_list = true) by (intros [|]; vm_compute; reflexivity). specialize (A ce). rewrite forallb_forall in A. apply A, ascii_in, H.
Qed.
Lemma ascii_wid ce c : 32 <= c < 127 -> segs ce [c] = [(1%nat, 1%Z)].
Proof.
  intro H. assert (A : forall ce, forallb (fun c => if (32 <=? c) && (c <? 127) then match segs ce [c] with [(n, w)] => (n =? 1)%nat && (w =? 1)%Z | _ => false end else true) ascii_list = true) by (intros [|]; vm_compute; reflexivity).
  specialize (A ce). rewrite forallb_forall in A. specialize (A c (ascii_in c ltac:(lia))). replace ((32 <=? c) && (c <? 127)) with true in A by lia. destruct (segs ce [c]) as [|[n w] [|? ?]]; try discriminate. apply andb_true_iff in A as [A1 A2]. f_equal. f_equal; lia.
Qed.
Lemma solid_detached ce t : starts_solid (wc_solid ce) t -> detached ce (mk_wcwidth ce 1) is_variant_selector is_possible_unqualified_half_width is_emoji (map fst t).
Proof.
  intro H. destruct t as [|[c f] t]; [apply detached_nil|]. cbn [starts_solid fst] in H. unfold wc_solid in H. apply andb_true_iff in H as [H H5]. apply andb_true_iff in H as [H H4]. apply andb_true_iff in H as [H H3]. apply andb_true_iff in H as [H1 H2].
  apply negb_true_iff in H1, H2, H3, H4, H5. unfold detached. cbn [map starts fst]. auto.
Qed.

Theorem wc_iterates ce : iterates (wc_gl ce) scalar (wc_solid ce).
Proof.
  assert (F1 : forall t, okt scalar t -> Forall scalar (map fst t)) by (intros t H; unfold okt in H; rewrite Forall_map; exact H).
  assert (K : forall t, okt scalar t -> exists l, clusters ce (mk_wcwidth ce 1) is_variant_selector is_possible_unqualified_half_width is_emoji (map fst t) l /\ wc_gl ce t = cut (sizes l) t /\ fold_right (fun g n => (fst g + n)%nat) O (sizes l) = length t /\ map fst t = concat (map (fun g : glyph => fst (fst g)) l)).
  { intros t H. destruct (segs_some ce (map fst t) (F1 t H)) as (l & C & E). exists l. split; [exact C|]. unfold wc_gl. rewrite E. split; [reflexivity|]. assert (Ec : concat (map (fun g : glyph => fst (fst g)) l) = map fst t) by exact (clusters_concat _ _ _ _ _ _ _ C). split; [rewrite sizes_sum, Ec, map_length; reflexivity|symmetry; exact Ec]. }
  assert (Oc : forall t l', okt scalar t -> (exists a b, t = a ++ l' ++ b) -> okt scalar l') by (intros t l' H (a & b & ->); apply Forall_app in H as [_ H]; apply Forall_app in H as [H _]; exact H).
  constructor.
  - intros t H. destruct (K t H) as (l & C & -> & S & E). apply cut_concat. exact S.
  - intros t H. destruct (K t H) as (l & C & -> & S & E). clear H K. revert t S E C. induction l as [|[[u w] e] l IH]; intros t S E C; [constructor|]. cbn [sizes map fold_right fst snd] in S. cbn [sizes map cut fst snd]. remember (map fst t) as mt eqn:Em. inversion C as [|u' r' w' e' l' C0 C' Eq]; subst u' w' e' l'.
    assert (Hu : u <> []) by (intros ->; exact (cluster_ne _ _ _ _ _ _ _ _ _ C0 eq_refl)).
    constructor; [cbn [fst]; destruct u as [|x u]; [congruence|]; destruct t; [cbn [length] in S; lia|cbn [length firstn]; discriminate]|].
    assert (Es : map fst (skipn (length u) t) = concat (map (fun g : glyph => fst (fst g)) l)) by (rewrite <- skipn_map; etransitivity; [apply f_equal; exact (eq_trans (eq_sym Em) E)|]; cbn [map concat fst]; apply skipn_app_l; reflexivity).
    apply IH; [rewrite skipn_length; unfold sizes in *; lia|exact Es|]. assert (Ec : concat (map (fun g : glyph => fst (fst g)) l) = r') by exact (clusters_concat _ _ _ _ _ _ _ C'). rewrite Es, Ec. exact C'.
  - intros t H. destruct (K t H) as (l & C & -> & S & E). assert (Fw : Forall (fun z => (z < 0 \/ 1 <= z)%Z) (map snd (sizes l))).
    { pose proof (F1 t H) as F. clear - C F. induction C as [|u r w e l C0 C IH]; [constructor|]. apply Forall_app in F as [Fu Fr]. constructor; [|exact (IH Fr)]. cbn [fst snd]. apply (cluster_wid ce u r w e C0). destruct u as [|x u]; [destruct (cluster_ne _ _ _ _ _ _ _ _ _ C0 eq_refl)|]. inversion Fu; assumption. }
    rewrite <- (map_fst_cut (sizes l) t) in Fw. rewrite Forall_map in Fw. eapply Forall_impl; [|exact Fw]. intros g Hg. cbn beta in Hg. unfold wid. destruct (snd g <? 0)%Z eqn:Eg; lia.
  - intros t k H. destruct (K t H) as (l & C & Eg & S & E). destruct (cut_text l t S E k) as [T _]. rewrite Eg. unfold wc_gl. rewrite T.
    rewrite (segs_of ce _ (firstn k l)); [|rewrite <- T; apply F1; apply (Oc t); [exact H|]; exists [], (concat (map fst (skipn k (cut (sizes l) t)))); cbn [app]; rewrite <- concat_app, <- map_app, firstn_skipn; symmetry; apply cut_concat; exact S|apply (clusters_prefix _ _ _ _ _ _ _ C k)].
    unfold sizes. rewrite <- firstn_map. fold (sizes l). apply cut_firstn.
  - intros t k H. destruct (K t H) as (l & C & Eg & S & E). destruct (cut_text l t S E k) as [_ T]. rewrite Eg. unfold wc_gl. rewrite T.
    rewrite (segs_of ce _ (skipn k l)); [|rewrite <- T; apply F1; apply (Oc t); [exact H|]; exists (concat (map fst (firstn k (cut (sizes l) t)))), []; rewrite app_nil_r, <- concat_app, <- map_app, firstn_skipn; symmetry; apply cut_concat; exact S|apply (clusters_rest ce _ _ k C)].
    clear - S. revert t S k. induction l as [|[[u w] e] l IH]; intros t S k; [destruct k; reflexivity|]. cbn [sizes map fold_right fst snd] in S. destruct k as [|k].
    + cbn [skipn]. rewrite cut_concat; [reflexivity|exact S].
    + cbn [skipn sizes map cut fst snd]. apply IH. rewrite skipn_length. unfold sizes. lia.
  - intros a b Ha Hb Hs. destruct (K a Ha) as (la & Ca & Ea & Sa & _). destruct (K b Hb) as (lb & Cb & Eb & Sb & _). rewrite Ea, Eb. unfold wc_gl. rewrite map_app.
    rewrite (segs_of ce _ (la ++ lb)); [|apply Forall_app; split; apply F1; assumption|apply clusters_app; [exact Ca|apply solid_detached; exact Hs|exact Cb]].
    unfold sizes. rewrite map_app. apply cut_app. exact Sa.
  - intros c f H. unfold wc_gl. cbn [map fst]. rewrite ascii_wid by exact H. reflexivity.
  - intros c H. unfold scalar. lia.
  - intros c Hc H. apply ascii_solid. unfold scalar in Hc. lia.
Qed.
