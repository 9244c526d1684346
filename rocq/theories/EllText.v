(** ellipsify on well formed text *)
From Verif Require Import Base UtfModel UtfSpec UtfProofs EscModel EscSpec EscProofs EscSplit WidthModel WcModel WcSpec WcProofs WcProperties EllModel EllSpec EllProofs.
Open Scope N_scope.

Section Text.
Variable ce : bool.
Variable wcw : N -> Z.
Notation codes_of := (codes_of ce wcw). Notation measure := (measure ce wcw).
Notation shown := (shown ce wcw). Notation graphemes := (graphemes ce wcw).

Definition ok_text (ks : list token) : Prop := Forall kok ks /\ separated ks /\ Forall short ks.
Lemma good_ok ks : good_text ks -> ok_text ks.
Proof. intros (A & B & C). split; [exact A|]. split; [exact B|]. eapply Forall_impl; [|exact C]. intros k H. unfold short. cbn beta in H. lia. Qed.
Definition is_text (k : token) : bool := match k with KText _ => true | _ => false end.
Fixpoint plan (n : nat) (ks : list token) : list (bool * list N * nat * nat) :=
  match ks with [] => [] | k :: ks => (is_text k, bs (ktext k), n, (n + length (bs (ktext k)))%nat) :: plan (n + length (bs (ktext k))) ks end.

Lemma scan_tokens ks : ok_text ks -> forall n fuel buf ty cod, (length ks < fuel)%nat -> scan (n + length (kbytes ks)) fuel (mkE SUnk buf true ty cod) (kbytes ks) = Some (plan n ks).
Proof.
  intros (Hk & Hsep & Hsh). induction Hk as [|k ks Hk Hks IH]; intros n fuel buf ty cod Hf; (destruct fuel as [|fuel]; [lia|]); [reflexivity|].
  destruct (enext_any k ks ty cod buf Hk Hks Hsep) as (cod0 & ty' & cod' & buf' & E & Hv). cbn [scan]. rewrite E. destruct (short_len k Hk (Forall_inv Hsh)) as [-> ->]. cbv zeta.
  specialize (IH (separated_tail k ks Hsep) (Forall_inv_tail Hsh) (n + length (bs (ktext k)))%nat fuel buf' ty' cod' ltac:(cbn [length] in Hf; lia)).
  rewrite kbytes_cons, app_length in *. replace (n + (length (bs (ktext k)) + length (kbytes ks)))%nat with (n + length (bs (ktext k)) + length (kbytes ks))%nat by lia. rewrite IH. cbn [plan].
  replace (match fst (kview k) with TChars => true | _ => false end) with (is_text k) by (destruct k; reflexivity).
  f_equal. f_equal. f_equal; [|lia]. f_equal. destruct (is_text k); lia.
Qed.
Lemma gl_bits ex cs l : Forall scalar cs -> graphemes cs l -> exists r, gl ce wcw (bs cs) = Some (r, []) /\ map (fun g : glyph => (true, fst (fst g), clen ex (snd (fst g)))) r = chars_bits ex l.
Proof.
  intros F G. destruct (c52_clusters ce wcw cs F) as (l0 & E & _ & U). rewrite <- (U _ G) in E. eexists. split; [exact E|]. unfold in_bytes, chars_bits. rewrite map_map. apply map_ext. intros [[u w] b]. reflexivity.
Qed.
Lemma place_app a : forall n b, place n (a ++ b) = place n a ++ place (n + length (text a)) b.
Proof.
  induction a as [|x a IH]; intros n b; cbn [app place]; [cbn [text map concat length]; rewrite Nat.add_0_r; reflexivity|]. f_equal. rewrite IH, text_cons, app_length, Nat.add_assoc. reflexivity.
Qed.
Lemma chars_text ex l : text (chars_bits ex l) = bs (text_of l).
Proof. unfold text, chars_bits, bs. rewrite <- text_bytes. unfold text_of, in_bytes. rewrite !map_map. reflexivity. Qed.
Lemma graphemes_text cs l : graphemes cs l -> text_of l = cs.
Proof. intro G. exact (clusters_concat _ _ _ _ _ _ _ G). Qed.
Lemma shown_text ex ks css : shown ex ks css -> text (concat css) = kbytes ks.
Proof.
  induction 1 as [|cs l ks r G H IH|k ks r Hk H IH]; [reflexivity| |]; cbn [concat]; rewrite text_app, kbytes_cons, IH; f_equal.
  - rewrite chars_text, (graphemes_text _ _ G). reflexivity.
  - unfold text. cbn [map concat btext fst snd]. apply app_nil_r.
Qed.
Lemma plan_bits ex ks css : shown ex ks css -> Forall kok ks -> forall n, exists cs, mapo (bits_of ce wcw ex) (plan n ks) = Some cs /\ concat cs = place n (concat css).
Proof.
  induction 1 as [|cs l ks r G H IH|k ks r Hk H IH]; intros F n; [exists []; split; reflexivity| |].
  - destruct (IH (Forall_inv_tail F) (n + length (bs cs))%nat) as (cs' & E & Ec). destruct (gl_bits ex cs l (proj1 (Forall_inv F)) G) as (gl0 & Eg & Em). cbn [plan mapo ktext is_text]. unfold bits_of at 1. rewrite Eg, Em, E. eexists. split; [reflexivity|].
    cbn [concat]. rewrite place_app, Ec, chars_text, (graphemes_text _ _ G). reflexivity.
  - destruct (IH (Forall_inv_tail F) (n + length (bs (ktext k)))%nat) as (cs' & E & Ec). cbn [plan mapo]. assert (Et : is_text k = false) by (destruct k; [contradiction|reflexivity..]). rewrite Et. cbn [bits_of]. rewrite E. eexists. split; [reflexivity|].
    cbn [concat app place btext fst snd]. rewrite Ec. reflexivity.
Qed.
Lemma codes_of_tokens ex ks css : shown ex ks css -> ok_text ks -> exists cs, codes_of ex (enc ks) = Some cs /\ concat cs = place 0 (concat css).
Proof.
  intros H K. unfold EllModel.codes_of, scan_all. change (enc ks) with (kbytes ks). destruct (plan_bits ex ks css H (proj1 K) 0) as (cs & E & Ec). exists cs. split; [|exact Ec].
  change (length (kbytes ks)) with (0 + length (kbytes ks))%nat at 1. unfold fresh. rewrite scan_tokens by (try exact K; pose proof (kbytes_len ks (proj1 K)); lia). exact E.
Qed.
Lemma measure_tokens ex ks css : shown ex ks css -> ok_text ks -> measure ex (enc ks) = Some (width (concat css)).
Proof. intros H K. unfold EllModel.measure. destruct (codes_of_tokens ex ks css H K) as (cs & -> & Ec). rewrite Ec, bits_place. reflexivity. Qed.

(** offsets *)
Lemma place_nth l : forall n k, skipn k (place n l) = place (n + length (text (firstn k l))) (skipn k l).
Proof.
  induction l as [|b l IH]; intros n k; [rewrite !skipn_nil; reflexivity|]. destruct k as [|k]; [cbn [skipn firstn text concat map length]; rewrite Nat.add_0_r; reflexivity|]. cbn [skipn firstn place]. rewrite IH, text_cons, app_length. f_equal. lia.
Qed.
Lemma place_firstn l : forall n k, firstn k (place n l) = place n (firstn k l).
Proof. induction l as [|b l IH]; intros n k; [rewrite !firstn_nil; reflexivity|]. destruct k as [|k]; [reflexivity|]. cbn [firstn place]. rewrite IH. reflexivity. Qed.
Lemma place_lead l : forall p q n, length p = n -> flat_map (fun r : bit * nat => if is_chars (fst r) then [] else sub (p ++ text l ++ q) (snd r) (length (btext (fst r)))) (place n l) = text (codes_only l).
Proof.
  induction l as [|b l IH]; intros p q n Hp; [reflexivity|]. cbn [place flat_map fst snd]. rewrite text_cons. unfold codes_only. cbn [filter].
  replace (p ++ (btext b ++ text l) ++ q) with ((p ++ btext b) ++ text l ++ q) by (rewrite <- !app_assoc; reflexivity). rewrite IH by (rewrite app_length; lia). fold (codes_only l). destruct (is_chars b); [reflexivity|]. cbn [negb]. rewrite text_cons. f_equal.
  unfold sub. rewrite <- app_assoc, skipn_app, skipn_all2, Hp, Nat.sub_diag by lia. cbn [app skipn]. rewrite firstn_app, Nat.sub_diag, firstn_all, firstn_O, app_nil_r. reflexivity.
Qed.

(** ** The ellipsis as text *)
Hypothesis W : wcw 8230 = 1%Z.
Definition dot : bit := (true, dots, 1%Z).
Lemma dots_bs : dots = bs [8230]. Proof. reflexivity. Qed.
Lemma dot_facts : is_variant_selector 8230 = false /\ is_possible_unqualified_half_width 8230 = false /\ is_emoji 8230 = false /\ regional 8230 = false.
Proof. vm_compute. auto. Qed.
Notation extends := (extends ce wcw is_variant_selector).
Lemma dot_cluster r : starts extends r = false -> cluster ce wcw is_variant_selector is_possible_unqualified_half_width is_emoji [8230] r 1 false.
Proof.
  destruct dot_facts as (F1 & F2 & F3 & F4). intro H. rewrite <- W. change (wcw 8230) with (widen (existsb (selects ce wcw is_variant_selector) []) (wcw 8230)). apply cl_plain; [lia| |constructor|exact H].
  unfold emojis_start. rewrite F1, F2, F3, F4. cbn [orb andb]. apply andb_false_r.
Qed.
Lemma dot_clusters r l : starts extends r = false -> graphemes r l -> graphemes (8230 :: r) (([8230], 1%Z, false) :: l).
Proof. intros H G. exact (cs_cons _ _ _ _ _ [8230] r 1%Z false l (dot_cluster r H) G). Qed.
Lemma dot_detached : detached ce wcw is_variant_selector is_possible_unqualified_half_width is_emoji [8230].
Proof.
  destruct dot_facts as (F1 & F2 & F3 & F4). unfold detached, starts. split; [exact F1|]. split; [reflexivity|]. split; [unfold joins; rewrite F2, F3; reflexivity|]. split; [unfold WcSpec.extends; rewrite W, F1, andb_false_r; reflexivity|exact F4].
Qed.
Lemma scalar_dot : scalar 8230. Proof. unfold scalar. lia. Qed.
Lemma dot_kok cs : Forall scalar cs -> Forall (fun c => 32 <= c) cs -> kok (KText (8230 :: cs)).
Proof. intros F G. split; [constructor; [exact scalar_dot|exact F]|]. split; [constructor; [lia|exact G]|]. exists 8230, cs. split; [reflexivity|lia]. Qed.
Lemma chars_firstn ex k l : firstn k (chars_bits ex l) = chars_bits ex (firstn k l). Proof. apply firstn_map. Qed.
Lemma chars_skipn ex k l : skipn k (chars_bits ex l) = chars_bits ex (skipn k l). Proof. apply skipn_map. Qed.
Lemma chars_app ex a b : chars_bits ex (a ++ b) = chars_bits ex a ++ chars_bits ex b. Proof. apply map_app. Qed.
Lemma text_of_app a b : text_of (a ++ b) = text_of a ++ text_of b. Proof. unfold text_of. rewrite map_app, concat_app. reflexivity. Qed.
Lemma bs_dot_len cs : length (bs (8230 :: cs)) = (3 + length (bs cs))%nat.
Proof. rewrite bs_cons, app_length. reflexivity. Qed.
Lemma codes_chars ex l : codes_only (chars_bits ex l) = [].
Proof. induction l as [|g l IH]; [reflexivity|]. exact IH. Qed.
Lemma codes_app a b : codes_only (a ++ b) = codes_only a ++ codes_only b. Proof. apply filter_app. Qed.
Lemma chars_len ex l : length (chars_bits ex l) = length l. Proof. apply map_length. Qed.

Lemma firstn_le {A} k (a b : list A) : (k <= length a)%nat -> firstn k (a ++ b) = firstn k a.
Proof. intro H. rewrite firstn_app. replace (k - length a)%nat with 0%nat by lia. rewrite firstn_O, app_nil_r. reflexivity. Qed.
Lemma skipn_le {A} k (a b : list A) : (k <= length a)%nat -> skipn k (a ++ b) = skipn k a ++ b.
Proof. intro H. rewrite skipn_app. replace (k - length a)%nat with 0%nat by lia. reflexivity. Qed.
(** the text cut before its character k, and the ellipsis *)
Lemma right_tokens ex ks css : shown ex ks css -> good_text ks -> forall k b, nth_error (concat css) k = Some b -> is_chars b = true ->
  exists ks' css', shown ex ks' css' /\ ok_text ks' /\ concat css' = firstn k (concat css) ++ [dot] /\
   (exists k0 r r', ks = k0 :: r /\ ks' <> [] /\ (is_text k0 = true \/ ks' = k0 :: r')).
Proof.
  induction 1 as [|cs l ks r G H IH|k0 ks r Hk H IH]; intros (K & S & L) k b En Eb; [destruct k; discriminate| |].
  - pose proof (graphemes_text _ _ G) as Gt. destruct (Forall_inv K) as (Fs & F32 & c & x & Ecs & Hc1). cbn [ktext] in Fs. cbn [concat] in *. destruct (Nat.ltb_spec k (@length glyph l)) as [Lt|Ge].
    + exists [KText (text_of (firstn k l) ++ [8230])], [chars_bits ex (firstn k l ++ [([8230], 1%Z, false)])].
      assert (G' : graphemes (text_of (firstn k l) ++ [8230]) (firstn k l ++ [([8230], 1%Z, false)])).
      { apply (clusters_app _ _ _ _ _ _ _ _ _ (clusters_prefix _ _ _ _ _ _ _ G k) dot_detached). exact (dot_clusters [] [] eq_refl (cs_nil _ _ _ _ _)). }
      assert (Fk : Forall scalar (text_of (firstn k l)) /\ Forall (fun c => 32 <= c) (text_of (firstn k l)) /\ (length (bs (text_of (firstn k l))) <= length (bs cs))%nat /\ (text_of (firstn k l) = [] \/ exists x', text_of (firstn k l) = c :: x')).
      { rewrite <- Gt in Fs, F32, Ecs |- *. rewrite <- (firstn_skipn k l) in Fs, F32, Ecs. rewrite text_of_app in Fs, F32, Ecs. apply Forall_app in Fs as [Fs _]. apply Forall_app in F32 as [F32 _]. split; [exact Fs|]. split; [exact F32|].
        split; [rewrite <- (firstn_skipn k l) at 2; rewrite text_of_app, bs_app, app_length; lia|]. destruct (text_of (firstn k l)) as [|c' x']; [left; reflexivity|right]. exists x'. injection Ecs as -> _. reflexivity. }
      destruct Fk as (Fk1 & Fk2 & Fk3 & Fk4). split; [apply sh_text; [exact G'|apply sh_nil]|]. split.
      * split; [|split; [exact I|]].
        -- constructor; [|constructor]. split; [cbn [ktext]; apply Forall_app; split; [exact Fk1|constructor; [exact scalar_dot|constructor]]|]. split; [apply Forall_app; split; [exact Fk2|constructor; [lia|constructor]]|].
           destruct Fk4 as [->|(x' & ->)]; [exists 8230, []; split; [reflexivity|lia]|exists c, (x' ++ [8230]); split; [reflexivity|exact Hc1]].
        -- constructor; [|constructor]. unfold short. cbn [ktext]. fold (bs (text_of (firstn k l) ++ [8230])). rewrite bs_app, app_length. change (length (bs [8230])) with 3%nat. pose proof (Forall_inv L) as L0. cbn [ktext] in L0. fold (bs cs) in L0. lia.
      * split; [cbn [concat]; rewrite app_nil_r, chars_app, firstn_le, chars_firstn by (rewrite chars_len; lia); reflexivity|]. exists (KText cs), ks, []. split; [reflexivity|]. split; [discriminate|left; reflexivity].
    + rewrite nth_error_app2 in En by (rewrite chars_len; exact Ge). rewrite chars_len in En.
      destruct (IH (conj (Forall_inv_tail K) (conj (separated_tail _ _ S) (Forall_inv_tail L))) _ _ En Eb) as (ks' & css' & H' & (K' & S' & L') & Ec & k1 & r1 & r1' & E1 & Ne & Hd).
      exists (KText cs :: ks'), (chars_bits ex l :: css'). split; [apply sh_text; assumption|]. split.
      * split; [constructor; [exact (Forall_inv K)|exact K']|]. split; [|constructor; [|exact L']; pose proof (Forall_inv L) as L0; unfold short; cbn beta in L0; lia].
        subst ks. cbn [separated] in S. destruct S as [(c1 & x1 & Et & Hc) _]. destruct Hd as [Ht| ->]; [|cbn [separated]; split; [exists c1, x1; auto|exact S']].
        destruct k1; try discriminate. destruct (Forall_inv (Forall_inv_tail K)) as (_ & F & _). cbn [ktext] in Et. rewrite Et in F. pose proof (Forall_inv F). cbn beta in *. lia.
      * split; [cbn [concat]; rewrite Ec, firstn_app, chars_len, app_assoc; f_equal; f_equal; rewrite firstn_all2 by (rewrite chars_len; exact Ge); reflexivity|]. exists (KText cs), ks, ks'. split; [reflexivity|]. split; [discriminate|left; reflexivity].
  - cbn [concat app] in *. destruct k as [|k]; [cbn [nth_error] in En; injection En as <-; discriminate|]. cbn [nth_error] in En.
    destruct (IH (conj (Forall_inv_tail K) (conj (separated_tail _ _ S) (Forall_inv_tail L))) _ _ En Eb) as (ks' & css' & H' & (K' & S' & L') & Ec & _).
    exists (k0 :: ks'), ([(false, bytes_of (ktext k0), 0%Z)] :: css'). split; [apply sh_code; assumption|]. split.
    + split; [constructor; [exact (Forall_inv K)|exact K']|]. split; [|constructor; [|exact L']; pose proof (Forall_inv L) as L0; unfold short; cbn beta in L0; lia]. destruct k0; [contradiction|exact S'..].
    + split; [cbn [concat app firstn]; rewrite Ec; reflexivity|]. exists k0, ks, ks'. split; [reflexivity|]. split; [discriminate|right; reflexivity].
Qed.

(** no character begins with something that would attach to what is before it *)
Definition unattached (ks : list token) : Prop := Forall (fun k => match k with KText cs => forall l, graphemes cs l -> Forall (fun g : glyph => starts extends (fst (fst g)) = false) l | _ => True end) ks.
Lemma starts_text (l : list glyph) : Forall (fun g : glyph => fst (fst g) <> []) l -> Forall (fun g : glyph => starts extends (fst (fst g)) = false) l -> starts extends (text_of l) = false.
Proof. intros A B. destruct l as [|[[u w] e] l]; [reflexivity|]. unfold text_of. cbn [map concat fst]. pose proof (Forall_inv A) as A0. pose proof (Forall_inv B) as B0. cbn [fst] in *. destruct u; [congruence|exact B0]. Qed.
Lemma graphemes_skip cs l k : graphemes cs l -> graphemes (text_of (skipn k l)) (skipn k l).
Proof.
  intro H. revert k. induction H as [|u r w e l C H IH]; intro k; [rewrite skipn_nil; constructor|]. destruct k as [|k]; [|exact (IH k)]. cbn [skipn]. unfold text_of. cbn [map concat fst]. fold (text_of l). rewrite (graphemes_text _ _ H). constructor; assumption.
Qed.
Lemma graphemes_ne cs l : graphemes cs l -> Forall (fun g : glyph => fst (fst g) <> []) l.
Proof. induction 1 as [|u r w e l C H IH]; constructor; [|exact IH]. cbn [fst]. exact (cluster_ne _ _ _ _ _ _ _ _ _ C). Qed.
Lemma left_tokens ex ks css : shown ex ks css -> good_text ks -> unattached ks -> forall i b, nth_error (concat css) i = Some b -> is_chars b = true ->
  exists ks' css', shown ex ks' css' /\ ok_text ks' /\ concat css' = codes_only (firstn (S i) (concat css)) ++ dot :: skipn (S i) (concat css).
Proof.
  induction 1 as [|cs l ks r G H IH|k0 ks r Hk H IH]; intros (K & S & L) U i b En Eb; [destruct i; discriminate| |].
  - pose proof (graphemes_text _ _ G) as Gt. destruct (Forall_inv K) as (Fs & F32 & _). cbn [ktext] in Fs. cbn [concat] in *. destruct (Nat.ltb_spec i (@length glyph l)) as [Lt|Ge].
    + set (k := Datatypes.S i). exists (KText (8230 :: text_of (skipn k l)) :: ks), (chars_bits ex (([8230], 1%Z, false) :: skipn k l) :: r).
      assert (Fk : Forall scalar (text_of (skipn k l)) /\ Forall (fun c => 32 <= c) (text_of (skipn k l)) /\ (length (bs (text_of (skipn k l))) <= length (bs cs))%nat).
      { rewrite <- Gt in Fs, F32 |- *. rewrite <- (firstn_skipn k l) in Fs, F32. rewrite text_of_app in Fs, F32. apply Forall_app in Fs as [_ Fs]. apply Forall_app in F32 as [_ F32]. split; [exact Fs|]. split; [exact F32|]. rewrite <- (firstn_skipn k l) at 2; rewrite text_of_app, bs_app, app_length; lia. }
      destruct Fk as (Fk1 & Fk2 & Fk3). split.
      * apply sh_text; [|exact H]. apply dot_clusters; [|exact (graphemes_skip _ _ _ G)]. pose proof (Forall_inv U l G) as U0. pose proof (graphemes_ne _ _ G) as N0. rewrite <- (firstn_skipn k l) in U0, N0. apply Forall_app in U0 as [_ U0]. apply Forall_app in N0 as [_ N0]. exact (starts_text _ N0 U0).
      * split; [split; [|split]|].
        -- constructor; [exact (dot_kok _ Fk1 Fk2)|exact (Forall_inv_tail K)].
        -- cbn [separated] in *. exact S.
        -- constructor; [|eapply Forall_impl; [|exact (Forall_inv_tail L)]; intros k1 H1; unfold short; cbn beta in H1; lia]. unfold short. cbn [ktext]. fold (bs (8230 :: text_of (skipn k l))). rewrite bs_dot_len. pose proof (Forall_inv L) as L0. cbn [ktext] in L0. fold (bs cs) in L0. lia.
        -- cbn [concat]. rewrite firstn_le, skipn_le by (rewrite chars_len; unfold k; lia). rewrite chars_firstn, chars_skipn, codes_chars. reflexivity.
    + rewrite nth_error_app2 in En by (rewrite chars_len; exact Ge). rewrite chars_len in En.
      destruct (IH (conj (Forall_inv_tail K) (conj (separated_tail _ _ S) (Forall_inv_tail L))) (Forall_inv_tail U) _ _ En Eb) as (ks' & css' & H' & O' & Ec). exists ks', css'. split; [exact H'|]. split; [exact O'|]. rewrite Ec, firstn_app, skipn_app, chars_len.
      rewrite (firstn_all2 (chars_bits ex l)), (skipn_all2 (chars_bits ex l)) by (rewrite chars_len; lia). rewrite codes_app, codes_chars. replace (Datatypes.S i - @length glyph l)%nat with (Datatypes.S (i - @length glyph l)) by lia. reflexivity.
  - cbn [concat app] in *. destruct i as [|i]; [cbn [nth_error] in En; injection En as <-; discriminate|]. cbn [nth_error] in En.
    destruct (IH (conj (Forall_inv_tail K) (conj (separated_tail _ _ S) (Forall_inv_tail L))) (Forall_inv_tail U) _ _ En Eb) as (ks' & css' & H' & (K' & S' & L') & Ec).
    exists (k0 :: ks'), ([(false, bytes_of (ktext k0), 0%Z)] :: css'). split; [apply sh_code; assumption|]. split.
    + split; [constructor; [exact (Forall_inv K)|exact K']|]. split; [|constructor; [|exact L']; pose proof (Forall_inv L) as L0; unfold short; cbn beta in L0; lia]. destruct k0; [contradiction|exact S'..].
    + cbn [concat app]. rewrite Ec. reflexivity.
Qed.
Lemma measure_dots ex : measure ex dots = Some 1%Z.
Proof.
  assert (H : shown ex [KText [8230]] [chars_bits ex [([8230], 1%Z, false)]]) by (apply sh_text; [exact (dot_clusters [] [] eq_refl (cs_nil _ _ _ _ _))|apply sh_nil]).
  assert (K : ok_text [KText [8230]]) by (split; [constructor; [apply dot_kok; constructor|constructor]|split; [exact I|constructor; [unfold short; vm_compute; reflexivity|constructor]]]). exact (measure_tokens ex _ _ H K).
Qed.
Lemma fit_dots ex room eo w : fit ce wcw ex dots room eo w -> (0 < room)%Z -> eo = dots /\ w = 1%Z.
Proof.
  intros (Hw & [(M & ->)|((m & M & Hm) & _)]) Hr; rewrite measure_dots in M.
  - injection M as <-. auto.
  - injection M as <-. lia.
Qed.
End Text.
