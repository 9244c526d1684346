(** The rows that parse makes are what update_line needs. *)
From Verif Require Import Base DispModel DispSpec DispTerm DispRows DispLayout.
Open Scope nat_scope.

Lemma unctrl_ascii c : (c < 32 \/ 127 <= c)%N -> (32 <= unctrl c < 127)%N.
Proof. intro H. unfold unctrl. destruct (c <? 32)%N eqn:E; lia. Qed.
Lemma map_some_inj {A} (a b : list A) : map Some a = map Some b -> a = b.
Proof. revert b. induction a as [|x a IH]; intros [|y b] H; try discriminate; [reflexivity|]. injection H as -> H. f_equal. apply IH. exact H. Qed.
Lemma prefix_split {A} (ps : list A) B C D : map Some ps ++ B = map Some C ++ D -> (exists C2, C = ps ++ C2) \/ (exists ps2, ps = C ++ ps2 /\ map Some ps2 ++ B = D).
Proof.
  revert C. induction ps as [|p ps IH]; intros [|c C] H; cbn [map app] in *.
  - left. exists []. reflexivity.
  - left. exists (c :: C). reflexivity.
  - right. exists (p :: ps). split; [reflexivity|exact H].
  - injection H as -> H. destruct (IH C H) as [(C2 & ->)|(ps2 & -> & E)]; [left; exists C2; reflexivity|right; exists ps2; auto].
Qed.
Definition cl (p : piece) : cluster := (fst p, Z.of_nat (snd p)).
Definition pc (g : cluster) : piece := (fst g, Z.to_nat (snd g)).
Section Plain.
Variable nls : bool.
Definition is_plain (g : cluster) : bool := negb (newline nls g) && (0 <=? snd g)%Z.
Lemma pieces_plain (g : cluster) : fst g <> [] -> is_plain g = true -> pieces nls g = [Some (pc g)].
Proof. intros Hn H. unfold is_plain in H. apply andb_true_iff in H as [H1 H2]. unfold pieces. apply negb_true_iff in H1. rewrite H1. destruct (fst g) as [|[c f] r] eqn:E; [exfalso; apply Hn; reflexivity|]. assert (E2 : (snd g <? 0)%Z = false) by lia. rewrite E2. unfold pc. rewrite E. reflexivity. Qed.
Lemma pieces_ctrl (g : cluster) c f : fst g = [(c, f)] -> (snd g < 0)%Z -> newline nls g = false -> pieces nls g = [Some ([(94%N, f)], 1); Some ([(unctrl c, f)], 1)].
Proof. intros E H N0. unfold pieces. rewrite N0, E. replace (snd g <? 0)%Z with true by lia. reflexivity. Qed.
Lemma cl_pc g : is_plain g = true -> cl (pc g) = g.
Proof. unfold is_plain, cl, pc. intro H. destruct g as [t w]. cbn [fst snd] in *. f_equal. lia. Qed.
Lemma run_split (l : list cluster) : exists a b, l = a ++ b /\ Forall (fun g => is_plain g = true) a /\ match b with [] => True | g :: _ => is_plain g = false end.
Proof.
  induction l as [|g l (a & b & E & Fa & Hb)]; [exists [], []; auto|]. destruct (is_plain g) eqn:Eg.
  - exists (g :: a), b. split; [rewrite E; reflexivity|]. split; [constructor; assumption|exact Hb].
  - exists [], (g :: l). auto.
Qed.
Lemma aps_plain l : Forall (fun g => is_plain g = true) l -> Forall (fun g : cluster => fst g <> []) l -> all_pieces nls l = map Some (map pc l).
Proof. induction 1 as [|g l Hg H IH]; intro F; [reflexivity|]. inversion F; subst. unfold all_pieces in *. cbn [flat_map map]. rewrite pieces_plain, IH by assumption. reflexivity. Qed.
Lemma pc_text l : ptext (map pc l) = concat (map fst l). Proof. unfold ptext. rewrite map_map. reflexivity. Qed.
Lemma starts_all gs f R1 r R2 : starts_from nls gs f (R1 ++ r :: R2) -> start_ok nls gs (f ++ flat R1) (l_start (fst r)).
Proof. revert f. induction R1 as [|a R1 IH]; intros f H; cbn [app starts_from] in H; destruct H as [H1 H2]; [unfold flat; cbn [flat_map]; rewrite app_nil_r; exact H1|]. specialize (IH _ H2). rewrite <- app_assoc in IH. exact IH. Qed.
End Plain.

Section Fits.
Variable gl : text -> list cluster.
Variable W : nat.
Variable ok : N -> Prop.
Variable solid : N -> bool.
Hypothesis It : iterates gl ok solid.
Variable nls : bool.
Variable buffer : text.
Hypothesis Hok : okt ok buffer.
Local Notation gs := (gl buffer).
(** control characters are single characters *)
Hypothesis Hctl : Forall (fun g : cluster => (snd g < 0)%Z -> exists c f, fst g = [(c, f)] /\ (c < 32 \/ 127 <= c)%N) gs.
(** what follows a control character does not join what is before it *)
Hypothesis Hsol : forall a g h b, gs = a ++ g :: h :: b -> (snd g < 0)%Z -> newline nls g = false -> starts_solid solid (fst h).

Definition good (ps : list piece) : Prop := okt ok (ptext ps) /\ gl (ptext ps) = map cl ps.

Lemma ok_sub a b c : gs = a ++ b ++ c -> okt ok (concat (map fst b)).
Proof. intro E. pose proof (it_concat _ _ _ It buffer Hok) as Ec. pose proof Hok as Hk. rewrite <- Ec, E, !map_app, !concat_app in Hk. apply okt_app in Hk as [_ Hk]. apply okt_app in Hk as [Hk _]. exact Hk. Qed.
Lemma gl_sub a b c : gs = a ++ b ++ c -> gl (concat (map fst b)) = b.
Proof.
  intro E. pose proof (it_rest _ _ _ It buffer (length a) Hok) as H1. rewrite E in H1. rewrite skipn_app_l in H1 by reflexivity.
  assert (O1 : okt ok (concat (map fst (b ++ c)))) by (apply (ok_sub a (b ++ c) []); rewrite app_nil_r; exact E).
  pose proof (it_cut _ _ _ It _ (length b) O1) as H2. rewrite H1 in H2. rewrite firstn_app_l in H2 by reflexivity. exact H2.
Qed.
Lemma good_app a b : good a -> good b -> starts_solid solid (ptext b) -> good (a ++ b).
Proof. intros [A1 A2] [B1 B2] H. split; rewrite ptext_app; [apply okt_app; auto|]. rewrite (it_app _ _ _ It) by assumption. rewrite A2, B2, map_app. reflexivity. Qed.
Lemma good_nil : good []. Proof. split; [constructor|]. apply (gl_nil gl ok solid It). Qed.
Lemma good_ascii c f : (32 <= c < 127)%N -> good [([(c, f)], 1)].
Proof. intro H. split; [constructor; [|constructor]; apply (it_ok _ _ _ It); cbn [fst]; lia|]. unfold ptext. cbn [map fst concat app]. apply (it_ascii _ _ _ It). exact H. Qed.
Lemma solid_ascii c f t : (32 <= c < 127)%N -> starts_solid solid ((c, f) :: t).
Proof. intro H. cbn [starts_solid fst]. apply (it_solid _ _ _ It); [apply (it_ok _ _ _ It)|]; lia. Qed.


Lemma ne_sub a b : gs = a ++ b -> Forall (fun g : cluster => fst g <> []) b.
Proof. intro E. pose proof (it_ne _ _ _ It buffer Hok) as H. rewrite E in H. apply Forall_app in H. tauto. Qed.

Lemma good_suffix n : forall pre post ps B, length post <= n -> gs = pre ++ post -> map Some ps ++ B = all_pieces nls post ->
  good ps /\ (forall g b, post = g :: b -> ps <> [] -> starts_solid solid (fst g) \/ is_plain nls g = false -> starts_solid solid (ptext ps)).
Proof.
  induction n as [|n IH]; intros pre post ps B Hn Eg Hp.
  - destruct post as [|g post]; [|cbn [length] in Hn; lia]. cbn in Hp. apply app_eq_nil in Hp as [Hp _]. destruct ps; [|discriminate]. split; [apply good_nil|]. intros; discriminate.
  - destruct post as [|g post]; [cbn in Hp; apply app_eq_nil in Hp as [Hp _]; destruct ps; [|discriminate]; split; [apply good_nil|intros; discriminate]|].
    pose proof (ne_sub _ _ Eg) as Hne.
    destruct (newline nls g) eqn:En.
    { assert (P : pieces nls g = [None]) by (unfold pieces; rewrite En; reflexivity). unfold all_pieces in Hp. cbn [flat_map] in Hp. rewrite P in Hp. destruct ps as [|p ps]; [split; [apply good_nil|]; intros; congruence|]. cbn in Hp. discriminate. }
    destruct (snd g <? 0)%Z eqn:Ec.
    + (* ^X *)
      assert (Hg : In g gs) by (rewrite Eg; apply in_or_app; right; left; reflexivity). pose proof Hctl as Hcc. rewrite Forall_forall in Hcc. destruct (Hcc g Hg ltac:(lia)) as (c & f & Ef & Hc).
      pose proof (pieces_ctrl nls g c f Ef ltac:(lia) En) as P. unfold all_pieces in Hp. cbn [flat_map] in Hp. rewrite P in Hp. cbn [app] in Hp.
      destruct ps as [|p1 ps]; [split; [apply good_nil|]; intros; congruence|]. cbn [map app] in Hp. injection Hp as E1 Hp. subst p1.
      assert (S1 : forall t, starts_solid solid (ptext (([(94%N, f)], 1) :: t))) by (intro t; unfold ptext; cbn [map concat fst app]; apply solid_ascii; lia).
      split; [|intros; apply S1].
      destruct ps as [|p2 ps]; [apply good_ascii; lia|]. cbn [map app] in Hp. injection Hp as E2 Hp. subst p2.
      assert (Eg' : gs = (pre ++ [g]) ++ post) by (rewrite <- app_assoc; exact Eg).
      destruct (IH (pre ++ [g]) post ps B ltac:(cbn [length] in Hn; lia) Eg' Hp) as [G S2].
      assert (S3 : starts_solid solid (ptext ps)).
      { destruct ps as [|p3 ps]; [exact Logic.I|]. destruct post as [|h post]; [cbn in Hp; discriminate|]. apply (S2 h post eq_refl ltac:(discriminate)). left. apply (Hsol pre g h post Eg ltac:(lia) En). }
      change (([(94%N, f)], 1) :: ([(unctrl c, f)], 1) :: ps) with ([([(94%N, f)], 1)] ++ [([(unctrl c, f)], 1)] ++ ps).
      pose proof (unctrl_ascii c Hc) as Hu.
      apply good_app; [apply good_ascii; lia| |unfold ptext; cbn [map concat fst app]; apply solid_ascii; exact Hu]. apply good_app; [apply good_ascii; exact Hu|exact G|exact S3].
    + (* a run of other characters *)
      assert (Pg : is_plain nls g = true) by (unfold is_plain; rewrite En; lia).
      destruct (run_split nls (g :: post)) as (a & b & E & Fa & Hb).
      assert (Ha : exists a', a = g :: a'). { destruct a as [|g' a]; cbn [app] in E; [subst b; congruence|]. injection E as <- _. exists a. reflexivity. }
      destruct Ha as (a' & ->). pose proof E as E'. cbn [app] in E'. injection E' as E'.
      rewrite E in Hp, Hne. rewrite aps_app in Hp. apply Forall_app in Hne as [Na Nb]. rewrite (aps_plain nls _ Fa Na) in Hp.
      assert (Gp : forall k, good (map pc (firstn k (g :: a')))).
      { intro k. split; rewrite pc_text.
        - apply (ok_sub pre _ (skipn k (g :: a') ++ b)). rewrite (app_assoc (firstn k (g :: a')) (skipn k (g :: a')) b), firstn_skipn, <- E. exact Eg.
        - rewrite (gl_sub pre (firstn k (g :: a')) (skipn k (g :: a') ++ b)).
          + rewrite map_map. rewrite <- (map_id (firstn k (g :: a'))) at 1. apply map_ext_in. intros x Hx. symmetry. apply (cl_pc nls). rewrite Forall_forall in Fa. apply Fa. rewrite <- (firstn_skipn k (g :: a')). apply in_or_app. left. exact Hx.
          + rewrite (app_assoc (firstn k (g :: a')) (skipn k (g :: a')) b), firstn_skipn, <- E. exact Eg. }
      assert (Sg : forall t, starts_solid solid (fst g) -> starts_solid solid (fst g ++ t)). { intros t H. inversion Na; subst. destruct (fst g) as [|x r]; [congruence|]. exact H. }
      destruct (prefix_split _ _ _ _ Hp) as [(C2 & Ecc)|(ps2 & Eps & Hp2)].
      * assert (Eps : ps = map pc (firstn (length ps) (g :: a'))). { rewrite <- firstn_map, Ecc, firstn_app_l by reflexivity. reflexivity. }
        split; [rewrite Eps; apply Gp|]. intros g0 b0 E0 Hps Hs. injection E0 as <- <-. destruct Hs as [Hs|Hs]; [|congruence]. rewrite Eps. rewrite pc_text. destruct ps as [|p ps]; [congruence|]. cbn [length firstn map concat]. apply Sg. exact Hs.
      * assert (Hb2 : length b <= n). { assert (length (g :: post) = length ((g :: a') ++ b)) by (rewrite E; reflexivity). rewrite app_length in H. cbn [length] in *. lia. }
        assert (Egb : gs = (pre ++ (g :: a')) ++ b) by (rewrite <- app_assoc, <- E; exact Eg).
        destruct (IH _ b ps2 B Hb2 Egb Hp2) as [G2 S2]. pose proof (Gp (length (g :: a'))) as G1. rewrite firstn_all in G1.
        split.
        -- rewrite Eps. apply good_app; [exact G1|exact G2|]. destruct ps2 as [|p2 ps2]; [exact Logic.I|]. destruct b as [|h b]; [cbn in Hp2; discriminate|]. apply (S2 h b eq_refl ltac:(discriminate)). right. exact Hb.
        -- intros g0 b0 E0 Hps Hs. injection E0 as <- <-. destruct Hs as [Hs|Hs]; [|congruence]. rewrite Eps, ptext_app, pc_text. cbn [map concat]. rewrite <- app_assoc. apply Sg. exact Hs.
Qed.
(** the pieces of a row *)
Lemma good_row f n ps B : start_ok nls gs f n -> f ++ map Some ps ++ B = all_pieces nls gs -> good ps.
Proof.
  intros (pre & post & Eg & _ & [->|(g & post' & q & q2 & Ep & Eq & ->)]) H.
  - rewrite Eg, aps_app in H. apply app_inv_head in H. apply (good_suffix (length post) pre post ps B (Nat.le_refl _) Eg H).
  - subst post. rewrite Eg, aps_app, <- app_assoc in H. apply app_inv_head in H. cbn [app] in H. unfold all_pieces in H. cbn [flat_map] in H. rewrite Eq in H. cbn [app] in H. injection H as H.
    assert (Hg : In g gs) by (rewrite Eg; apply in_or_app; right; left; reflexivity).
    assert (En : newline nls g = false) by (destruct (newline nls g) eqn:En; [unfold pieces in Eq; rewrite En in Eq; discriminate|reflexivity]).
    assert (Ec : (snd g < 0)%Z). { unfold pieces in Eq. rewrite En in Eq. destruct (fst g) as [|[c f] r]; [discriminate|]. destruct (snd g <? 0)%Z eqn:Ec; [lia|discriminate]. }
    pose proof Hctl as Hcc. rewrite Forall_forall in Hcc. destruct (Hcc g Hg Ec) as (c & f0 & Ef & Hc). rewrite (pieces_ctrl nls g c f0 Ef Ec En) in Eq. injection Eq as <- <-.
    destruct ps as [|p ps]; [apply good_nil|]. cbn [map app] in H. injection H as -> H. pose proof (unctrl_ascii c Hc) as Hu.
    assert (Eg' : gs = (pre ++ [g]) ++ post') by (rewrite <- app_assoc; exact Eg).
    destruct (good_suffix (length post') (pre ++ [g]) post' ps B (Nat.le_refl _) Eg' H) as [G S2].
    change (([(unctrl c, f0)], 1) :: ps) with ([([(unctrl c, f0)], 1)] ++ ps). apply good_app; [apply good_ascii; exact Hu|exact G|].
    destruct ps as [|p3 ps]; [exact Logic.I|]. destruct post' as [|h post']; [cbn in H; discriminate|]. apply (S2 h post' eq_refl ltac:(discriminate)). left. apply (Hsol pre g h post' Eg Ec En).
Qed.
Lemma span_width ps : Forall (fun p : piece => 1 <= snd p) ps -> width (map cl ps) = span ps.
Proof. induction 1 as [|p ps Hp H IH]; [reflexivity|]. cbn [map width span fold_right]. fold (span ps). rewrite IH. unfold wid, cl. cbn [snd]. replace (Z.of_nat (snd p) <? 0)%Z with false by lia. lia. Qed.
Lemma pieces_pos g : In g gs -> Forall (fun q => match q with Some p => 1 <= snd p | None => True end) (pieces nls g).
Proof.
  intro Hg. pose proof (it_pos _ _ _ It buffer Hok) as H. rewrite Forall_forall in H. specialize (H g Hg). unfold pieces. destruct (newline nls g); [constructor; [exact Logic.I|constructor]|]. destruct (fst g) as [|[c f] r]; [constructor|].
  unfold wid in H. destruct (snd g <? 0)%Z; repeat (constructor; [cbn [snd]; lia|]); constructor.
Qed.
Lemma row_pos f ps B : f ++ map Some ps ++ B = all_pieces nls gs -> Forall (fun p : piece => 1 <= snd p) ps.
Proof.
  intro H. apply Forall_forall. intros p Hp. assert (Hin : In (Some p) (all_pieces nls gs)) by (rewrite <- H; apply in_or_app; right; apply in_or_app; left; apply in_map; exact Hp).
  unfold all_pieces in Hin. apply in_flat_map in Hin as (g & Hg & Hq). pose proof (pieces_pos g Hg) as F. rewrite Forall_forall in F. exact (F _ Hq).
Qed.
Lemma layout_row col rs R1 l ps R2 : layout W nls gs col rs -> rs = R1 ++ (l, ps) :: R2 -> good ps /\ Forall (fun p : piece => 1 <= snd p) ps.
Proof.
  intros L E. pose proof (lo_all _ _ _ _ _ L) as Ea. pose proof (lo_start _ _ _ _ _ L) as Es. rewrite E in Ea, Es. apply (starts_all nls) in Es. cbn [app] in Es.
  rewrite flat_app in Ea. change ((l, ps) :: R2) with ([(l, ps)] ++ R2) in Ea. rewrite flat_app, flat_one in Ea. unfold flat1 in Ea. cbn [fst snd] in Ea. rewrite <- app_assoc in Ea.
  split; [exact (good_row _ _ _ _ Es Ea)|exact (row_pos _ _ _ Ea)].
Qed.
(** every row of the layout fits, and is of valid characters *)
Theorem layout_fits col rs r : layout W nls gs col rs -> In r rs -> okt ok (l_text (fst r)) /\ fits gl W (fst r) /\ gl (l_text (fst r)) = map cl (snd r) ++ map (fun _ => ([(32%N, f_normal)], 1%Z)) (spaces (l_trail (fst r))).
Proof.
  intros L Hr. apply in_split in Hr as (R1 & R2 & E). destruct r as [l ps]. destruct (layout_row col rs R1 l ps R2 L E) as [[G1 G2] Hp].
  pose proof (lo_laid _ _ _ _ _ L) as F. rewrite E in F. apply Forall_app in F as [_ F]. inversion F as [|? ? (T & C & Hw) _]; subst. cbn [fst snd] in *.
  split; [rewrite T; apply okt_app; split; [exact G1|apply (okt_spaces gl ok solid It)]|]. split.
  - exists (ptext ps). split; [exact T|]. split; [|exact Hw]. rewrite C. f_equal. rewrite (cells_len gl ok solid It) by exact G1. rewrite G2. symmetry. apply span_width. exact Hp.
  - rewrite T, (it_app _ _ _ It); [|exact G1|apply (okt_spaces gl ok solid It)|apply (solid_spaces gl ok solid It)]. rewrite G2. f_equal. clear - It.
    induction (l_trail l) as [|n IH]; [apply (gl_nil gl ok solid It)|]. change (spaces (S n)) with ([(32%N, f_normal)] ++ spaces n). rewrite (it_app _ _ _ It); [|constructor; [|constructor]; apply (it_ok _ _ _ It); cbn [fst]; lia|apply (okt_spaces gl ok solid It)|apply (solid_spaces gl ok solid It)].
    rewrite (it_ascii _ _ _ It) by lia. rewrite IH, map_app. reflexivity.
Qed.
(** if every character of the buffer is of one colour, so is every one of the row *)
Theorem layout_face col rs r : layout W nls gs col rs -> In r rs -> one_face gl buffer -> one_face gl (l_text (fst r)).
Proof.
  intros L Hr Hf. pose proof (layout_fits col rs r L Hr) as (_ & _ & E). unfold one_face. rewrite E. apply Forall_app. split.
  - apply Forall_map. apply in_split in Hr as (R1 & R2 & Er). destruct r as [l ps]. cbn [snd]. pose proof (lo_all _ _ _ _ _ L) as Ea. rewrite Er in Ea. rewrite flat_app in Ea. change ((l, ps) :: R2) with ([(l, ps)] ++ R2) in Ea. rewrite flat_app, flat_one in Ea. unfold flat1 in Ea. cbn [fst snd] in Ea. rewrite <- app_assoc in Ea.
    apply Forall_forall. intros p Hp. assert (Hin : In (Some p) (all_pieces nls gs)) by (rewrite <- Ea; apply in_or_app; right; apply in_or_app; left; apply in_map; exact Hp).
    unfold all_pieces in Hin. apply in_flat_map in Hin as (g & Hg & Hq). unfold one_face in Hf. rewrite Forall_forall in Hf. specialize (Hf g Hg). unfold pieces in Hq. destruct (newline nls g); [destruct Hq as [Hq|[]]; discriminate|].
    destruct (fst g) as [|[c f] t] eqn:Eg; [destruct Hq|]. destruct (snd g <? 0)%Z; [destruct Hq as [Hq|[Hq|[]]]|destruct Hq as [Hq|[]]]; injection Hq as <-; cbn [cl fst].
    + constructor; [reflexivity|constructor].
    + constructor; [reflexivity|constructor].
    + exact Hf.
  - clear. induction (l_trail (fst r)) as [|n IH]; [constructor|]. cbn [spaces repeat map]. constructor; [|exact IH]. cbn [fst]. constructor; [reflexivity|constructor].
Qed.
End Fits.
