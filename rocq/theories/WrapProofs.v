(** Proofs about the wrapper *)
From Verif Require Import Base UtfModel UtfSpec UtfProofs EscModel EscSpec EscProofs WidthModel WcModel WcSpec WcProofs WcProperties EllModel EllSpec EllText WrapModel WrapSpec.
Open Scope N_scope.

Lemma gwidth_app a b : gwidth (a ++ b) = (gwidth a + gwidth b)%Z.
Proof. unfold gwidth. induction a as [|g a IH]; [reflexivity|]. cbn [app map fold_right]. rewrite IH. lia. Qed.
Lemma onectrl_pos g : (0 <= onectrl g)%Z.
Proof. destruct g as [[u w] e]. unfold onectrl. destruct (w <? 0)%Z eqn:E; lia. Qed.
Lemma gwidth_pos l : (0 <= gwidth l)%Z.
Proof. unfold gwidth. induction l as [|g l IH]; [cbn; lia|]. cbn [map fold_right]. pose proof (onectrl_pos g). lia. Qed.
Definition off (l : list glyph) : nat := length (bs (text_of l)).
Lemma off_app a b : off (a ++ b) = (off a + off b)%nat.
Proof. unfold off. rewrite text_of_app, bs_app, app_length. reflexivity. Qed.

Definition head_solid (l : list glyph) : Prop := match l with [] => True | g :: _ => is_space g = false end.
Inductive inv (s : nat) : list glyph -> nat -> nat -> nat -> Prop :=
| inv_start n : inv s [] s s n
| inv_word P f wd n g : inv s P f wd n -> is_space g = false -> inv s (P ++ [g]) f (s + off (P ++ [g])) n
| inv_space P f wd n g : inv s P f wd n -> is_space g = true -> inv s (P ++ [g]) wd wd (s + off (P ++ [g])).
Definition last_solid (l : list glyph) : Prop := head_solid (rev l).
Lemma head_app a b : head_solid (a ++ b) -> head_solid a.
Proof. destruct a; [intros _; exact I|auto]. Qed.
Lemma inv_facts s P f wd n : inv s P f wd n -> head_solid P -> exists A G B, P = A ++ G ++ B /\ solid B /\ blank G /\ (A = [] <-> G = []) /\ last_solid A /\ f = (s + off A)%nat /\ (G <> [] -> n = s + off (A ++ G))%nat /\
  (B = [] -> wd = s + off A)%nat /\ (B <> [] -> wd = s + off P)%nat.
Proof.
  induction 1 as [n|P f wd n g H IH Hg|P f wd n g H IH Hg]; intro Hd.
  - exists [], [], []. repeat split; try constructor; cbn; try lia; congruence.
  - destruct (IH (head_app _ _ Hd)) as (A & G & B & -> & SB & BG & AG & LA & Ef & En & E1 & E2). exists A, G, (B ++ [g]). split; [rewrite <- !app_assoc; reflexivity|]. split; [apply Forall_app; split; [exact SB|constructor; [exact Hg|constructor]]|]. split; [exact BG|]. split; [exact AG|]. split; [exact LA|]. split; [exact Ef|]. split; [exact En|]. split; [intro Hb; destruct B; discriminate|]. intros _. reflexivity.
  - destruct (IH (head_app _ _ Hd)) as (A & G & B & EP & SB & BG & AG & LA & Ef & En & E1 & E2). destruct B as [|b B].
    + rewrite app_nil_r in EP. subst P. exists A, (G ++ [g]), []. specialize (E1 eq_refl). split; [rewrite app_nil_r, app_assoc; reflexivity|]. split; [constructor|]. split; [apply Forall_app; split; [exact BG|constructor; [exact Hg|constructor]]|].
      assert (NA : A <> []) by (intros ->; rewrite (proj1 AG eq_refl) in Hd; cbn [app head_solid] in Hd; congruence). split; [split; intro X; [contradiction|destruct G; discriminate]|]. split; [exact LA|]. split; [exact E1|]. split; [intros _; rewrite app_assoc; reflexivity|]. split; [intros _; exact E1|congruence].
    + specialize (E2 ltac:(discriminate)). exists P, [g], []. split; [rewrite app_nil_r; reflexivity|]. split; [constructor|]. split; [constructor; [exact Hg|constructor]|]. split; [split; intro X; [subst P; destruct A; [destruct G|]; discriminate|discriminate]|].
      split; [rewrite EP; unfold last_solid; rewrite app_assoc, rev_app_distr; destruct (rev (b :: B)) as [|x y] eqn:Er; [apply (f_equal (@length glyph)) in Er; rewrite rev_length in Er; discriminate|]; cbn [app head_solid]; unfold solid in SB; rewrite Forall_forall in SB; apply SB; apply in_rev; rewrite Er; left; reflexivity|].
      split; [exact E2|]. split; [intros _; reflexivity|]. split; [intros _; exact E2|congruence].
Qed.

Lemma line_at a b c : line_text (a ++ b ++ c) (length a, (Z.of_nat (length a + length b) - Z.of_nat (length a))%Z) = b.
Proof.
  unfold line_text. cbn [fst snd]. replace (Z.of_nat (length a + length b) - Z.of_nat (length a))%Z with (Z.of_nat (length b)) by lia. replace (Z.of_nat (length b) <? 0)%Z with false by lia. rewrite Nat2Z.id. unfold sub. rewrite skipn_app, skipn_all, Nat.sub_diag. cbn [skipn app]. rewrite firstn_app, Nat.sub_diag, firstn_all, firstn_O, app_nil_r. reflexivity.
Qed.
Lemma edges_of l : l <> [] -> head_solid l -> last_solid l -> edges l.
Proof.
  intros N H L. unfold edges. destruct l as [|a l]; [congruence|]. unfold last_solid in L. destruct (rev (a :: l)) as [|b r] eqn:E; [apply (f_equal (@length glyph)) in E; rewrite rev_length in E; discriminate|]. auto.
Qed.
Lemma solid_last l : solid l -> last_solid l.
Proof. intro H. unfold last_solid. assert (R : solid (rev l)) by (apply Forall_rev; exact H). destruct (rev l); [exact I|exact (Forall_inv R)]. Qed.
Lemma last_app a b : b <> [] -> last_solid b -> last_solid (a ++ b).
Proof. intros N L. unfold last_solid in *. rewrite rev_app_distr. destruct (rev b) as [|x y] eqn:E; [destruct b; [congruence|apply (f_equal (@length glyph)) in E; rewrite rev_length in E; discriminate]|exact L]. Qed.
Lemma word_solid b r : solid b -> word (b ++ r) = b ++ word r.
Proof. induction 1 as [|g b H F IH]; [reflexivity|]. cbn [app word]. rewrite H, IH. reflexivity. Qed.

Section Wrap.
Variable ce : bool.
Variable wcw : N -> Z.
Variable W : Z.
Hypothesis HW : (0 < W)%Z.
Notation inner := (inner ce wcw). Notation graphemes := (graphemes ce wcw).
Notation wnext := (WcModel.wnext ce wcw is_variant_selector is_possible_unqualified_half_width is_emoji).

(** a space is a character of its own *)
Definition spaced (l : list glyph) : Prop := Forall (fun g : glyph => is_space g = false -> starts (N.eqb 32) (fst (fst g)) = false) l.
Definition fin_lines (r : wrs) : list (nat * Z) := if (r_s r <? r_fits r)%nat then push r else r_lines r.

Lemma inner_mono t fin fuel : forall w r x, inner t W fin fuel w r = Some x -> inner t W fin (S fuel) w r = Some x.
Proof.
  induction fuel as [|fuel IH]; intros w r x H; [discriminate|]. cbn [WrapModel.inner] in H. change (WrapModel.inner ce wcw t W fin (S (S fuel)) w r) with
    (match wnext w with None => None | Some (c, w) =>
      let p := (fin - length (w_end w))%nat in
      let r := if (c =? 0) || (c =? 32) then mkWr (r_s r) (r_word r) (r_word r) p (r_cells r) (r_lines r) else r in
      if c =? 0 then Some r
      else
        let x := onectrl (wglyph w) in
        if negb (W =? 0)%Z && (W <? r_cells r + x)%Z then
          let r := if (r_fits r <=? r_s r)%nat then mkWr (r_s r) (r_word r) (r_word r) (r_word r) (r_cells r) (r_lines r) else r in
          let s := (r_next r + spaces (skipn (r_next r) t))%nat in
          inner t W fin (S fuel) (wreset (sub t s (fin - s))) (mkWr s s s (r_next r) 0 (push r))
        else inner t W fin (S fuel) w (mkWr (r_s r) (r_fits r) (if c =? 32 then r_word r else p) (r_next r) (r_cells r + x)%Z (r_lines r))
    end).
  destruct (wnext w) as [[c w']|]; [|discriminate]. cbv zeta in H |- *. destruct (c =? 0); [exact H|]. destruct (negb (W =? 0)%Z && _); apply IH; exact H.
Qed.
Lemma inner_mono_le t fin fuel fuel' w r x : (fuel <= fuel')%nat -> inner t W fin fuel w r = Some x -> inner t W fin fuel' w r = Some x.
Proof. induction 1 as [|m H IH]; intro E; [exact E|]. apply inner_mono. exact (IH E). Qed.

Lemma spaces_glyphs l : spaced l -> Forall (fun g : glyph => fst (fst g) <> []) l -> Forall scalar (text_of l) -> exists G R, l = G ++ R /\ blank G /\ head_solid R /\ spaces (bs (text_of l)) = off G.
Proof.
  induction l as [|g l IH]; intros S N F; [exists [], []; repeat split; constructor|]. destruct (is_space g) eqn:Eg.
  - assert (Eu : fst (fst g) = [32]) by (unfold is_space in Eg; destruct (fst (fst g)) as [|[|p] [|y z]]; try discriminate; [destruct p as [p|p|]; try discriminate; destruct p as [p|p|]; try discriminate; destruct p as [p|p|]; try discriminate; destruct p as [p|p|]; try discriminate; destruct p as [p|p|]; try discriminate; destruct p; try discriminate; reflexivity|]; repeat (destruct p as [p|p|]; try discriminate)).
    assert (Et : text_of (g :: l) = 32 :: text_of l) by (unfold text_of; cbn [map concat]; rewrite Eu; reflexivity). rewrite Et in F |- *. destruct (IH (Forall_inv_tail S) (Forall_inv_tail N) (Forall_inv_tail F)) as (G & R & -> & BG & HR & E).
    exists (g :: G), R. split; [reflexivity|]. split; [constructor; assumption|]. split; [exact HR|]. rewrite bs_cons. change (utf8 32) with [32]. cbn [app spaces]. rewrite E. unfold off at 2. unfold text_of. cbn [map concat]. rewrite Eu. cbn [app]. rewrite bs_cons, app_length. reflexivity.
  - exists [], (g :: l). split; [reflexivity|]. split; [constructor|]. split; [exact Eg|]. pose proof (Forall_inv S Eg) as Hs. pose proof (Forall_inv N) as Hn. unfold off, text_of in *. cbn [map concat length bs bytes_of flat_map] in *. destruct (fst (fst g)) as [|c u]; [congruence|]. cbn [starts] in Hs. cbn [app] in F |- *. unfold bytes_of. cbn [flat_map].
    pose proof (Forall_inv F) as Hc. assert (forall x, spaces (utf8 c ++ x) = 0%nat); [|auto]. intro x. unfold utf8. destruct (c <? 128) eqn:E1; [|destruct (c <? 2048); [|destruct (c <? 65536)]]; cbn [app spaces];
      match goal with |- match ?a with _ => _ end = _ => assert (a <> 32) by lia; destruct a as [|p]; [reflexivity|]; repeat (destruct p as [p|p|]; try reflexivity); congruence end.
Qed.

Lemma at_wreset cps : Forall scalar cps -> at_ (wreset (bs cps)) cps.
Proof. intro F. split; [apply good_reset|]. split; [unfold wreset; destruct (d8 (bs cps)); reflexivity|exact F]. Qed.
Lemma gr_app a b : graphemes (text_of (a ++ b)) (a ++ b) -> graphemes (text_of b) b.
Proof. intro G. pose proof (graphemes_skip ce wcw _ _ (length a) G) as H. rewrite skipn_app, skipn_all, Nat.sub_diag in H. exact H. Qed.
Lemma head_blank G R : blank G -> head_solid (G ++ R) -> G = [].
Proof. intros B H. destruct G as [|g G]; [reflexivity|]. pose proof (Forall_inv B) as Hb. cbn [app head_solid] in H. congruence. Qed.
Lemma is_space_32 (g : glyph) : is_space g = true -> fst (fst g) = [32].
Proof.
  intro Eg. unfold is_space in Eg. destruct (fst (fst g)) as [|x [|y z]]; [discriminate| |exfalso; destruct x as [|p]; [discriminate|]; repeat (destruct p as [p|p|]; try discriminate)]. f_equal. destruct x as [|p]; [discriminate|]. repeat (destruct p as [p|p|]; try discriminate). reflexivity.
Qed.

Lemma off_pos a l : Forall (fun g : glyph => fst (fst g) <> []) (a :: l) -> (0 < off (a :: l))%nat.
Proof.
  intro Ne. pose proof (Forall_inv Ne) as Na. cbn beta in Na. unfold off, text_of. cbn [map concat]. pose proof (bs_len (fst (fst a) ++ concat (map (fun g : glyph => fst (fst g)) l))) as L. rewrite app_length in L. destruct (fst (fst a)) as [|c0 u0]; [congruence|]. cbn [length] in L. lia.
Qed.
Section Main.
Variable t : list N.
(** what holds at the start of a line with [l] ahead *)
Definition good_line (l : list glyph) : Prop :=
  graphemes (text_of l) l /\ spaced l /\ Forall (fun g => (onectrl g <= W)%Z) l /\ Forall scalar (text_of l).
Definition result (r : wrs) (ls0 : list (nat * Z)) (l : list glyph) : Prop :=
  exists ls, wrapped W l ls /\ map (line_text t) (fin_lines r) = map (line_text t) ls0 ++ map (fun x => bs (text_of x)) ls.
Definition line_start (l : list glyph) : Prop := forall p0 nx ls0, t = bs p0 ++ bs (text_of l) -> head_solid l -> let s := length (bs p0) in
  exists fuel r, inner t W (length t) fuel (wreset (bs (text_of l))) (mkWr s s s nx 0 ls0) = Some r /\ result r ls0 l.

Lemma good_app a b : good_line (a ++ b) -> good_line b.
Proof.
  intros (G & S & F & C). split; [exact (gr_app a b G)|]. apply Forall_app in S as [_ S]. apply Forall_app in F as [_ F]. rewrite text_of_app in C. apply Forall_app in C as [_ C]. repeat split; assumption.
Qed.
(** the line ends after [line]; [gap] is left out *)
Lemma break l p0 nx ls0 cells wd line gap rest : (forall l', (length l' < length l)%nat -> good_line l' -> line_start l') -> good_line l -> t = bs p0 ++ bs (text_of l) ->
  l = line ++ gap ++ rest -> edges line -> (gwidth line <= W)%Z -> blank gap -> (gap = [] -> solid line) ->
  (W < gwidth (line ++ gap) \/ head_solid rest /\ W < gwidth (line ++ gap ++ word rest))%Z ->
  let s := length (bs p0) in let r := mkWr s (s + off line) wd nx cells ls0 in
  nx = (s + off (line ++ gap))%nat ->
  exists fuel r', (let s' := (nx + spaces (skipn nx t))%nat in inner t W (length t) fuel (wreset (sub t s' (length t - s'))) (mkWr s' s' s' nx 0 (push r))) = Some r' /\ result r' ls0 l.
Proof.
  intros IH Hl Et El Ed Hw Bg Sl Hc s r En. cbv zeta. assert (Er : good_line rest) by (subst l; rewrite app_assoc in Hl; exact (good_app _ _ Hl)).
  assert (Hk : skipn nx t = bs (text_of rest)).
  { rewrite En, Et, El, app_assoc, text_of_app, bs_app. unfold off. fold s. rewrite app_assoc, skipn_app, skipn_all2 by (rewrite app_length; fold s; lia). rewrite app_length. fold s. rewrite Nat.sub_diag. reflexivity. }
  destruct Er as (Gr & Sr & Fr & Cr). destruct (spaces_glyphs rest Sr (graphemes_ne ce wcw _ _ Gr) Cr) as (G2 & R2 & E2 & B2 & H2 & Esp). rewrite Hk, Esp.
  set (p1 := p0 ++ text_of (line ++ gap ++ G2)). assert (Es' : (nx + off G2)%nat = length (bs p1)) by (rewrite En; unfold p1; rewrite bs_app, app_length; fold s; rewrite !off_app; fold (off (line ++ gap ++ G2)); rewrite !off_app; lia).
  assert (Et1 : t = bs p1 ++ bs (text_of R2)) by (rewrite Et, El, E2; unfold p1; rewrite !text_of_app, !bs_app, <- !app_assoc; reflexivity).
  assert (G2r : good_line R2) by (apply (good_app G2); rewrite <- E2; repeat split; assumption).
  assert (Ne : line <> []) by (intros ->; exact Ed). assert (Hlen : (length R2 < length l)%nat) by (rewrite El, E2, !app_length; destruct line; [congruence|cbn [length]; lia]).
  destruct (IH R2 Hlen G2r p1 nx (push r) Et1 H2) as (fuel & r' & E & ls & Hwr & Em). exists fuel, r'. split.
  - rewrite Es'. unfold sub. assert (Hs : skipn (length (bs p1)) t = bs (text_of R2)) by (rewrite Et1 at 1; rewrite skipn_app, skipn_all, Nat.sub_diag; reflexivity).
    rewrite Hs, firstn_all2; [exact E|]. rewrite <- Hs, skipn_length. lia.
  - exists (line :: ls). split.
    + rewrite El, E2, (app_assoc gap). apply wr_line; [exact Ed|exact Hw|apply Forall_app; split; assumption| | |exact H2|exact Hwr].
      * intros _. rewrite <- app_assoc, !gwidth_app. destruct Hc as [Hc|[Hh Hc]]; [rewrite gwidth_app in Hc; pose proof (gwidth_pos G2); pose proof (gwidth_pos (word R2)); lia|]. rewrite E2 in Hh. pose proof (head_blank _ _ B2 Hh) as ->. cbn [app] in E2. subst R2. rewrite !gwidth_app in Hc. cbn [gwidth map fold_right]. lia.
      * intros _ E0. apply app_eq_nil in E0 as [E0 _]. exact (Sl E0).
    + etransitivity; [exact Em|]. unfold push, r. cbn [r_lines r_s r_fits]. rewrite map_app, <- app_assoc. f_equal. cbn [map app]. f_equal. rewrite Et, El, text_of_app, bs_app. unfold off. apply line_at.
Qed.

Lemma main n : forall l, (length l < n)%nat -> good_line l -> line_start l.
Proof.
  induction n as [|n IHn]; intros l Hn Hl; [lia|]. intros p0 nx0 ls0 Et Hd s.
  assert (IH : forall l', (length l' < length l)%nat -> good_line l' -> line_start l') by (intros l' H'; apply IHn; lia).
  (* along the line *)
  assert (Run : forall R P f wd nx w, l = P ++ R -> inv s P f wd nx -> (gwidth P <= W)%Z -> at_ w (text_of R) ->
     exists fuel r, inner t W (length t) fuel w (mkWr s f wd nx (gwidth P) ls0) = Some r /\ result r ls0 l).
  { induction R as [|g R IHR]; intros P f wd nx w El Hi Hw Ha.
    - exists 1%nat. cbn [WrapModel.inner]. pose proof (at_nil w Ha) as H0. unfold WcModel.wnext. rewrite H0. cbn [N.eqb orb r_s r_word r_cells r_lines]. eexists. split; [reflexivity|]. rewrite app_nil_r in El. subst P.
      destruct (inv_facts _ _ _ _ _ Hi Hd) as (A & G & B & EP & SB & BG & AG & LA & Ef & En & E1 & E2). unfold result, fin_lines. cbn [r_s r_fits]. destruct B as [|b B].
      + specialize (E1 eq_refl). rewrite app_nil_r in EP. destruct A as [|a A].
        * rewrite (proj1 AG eq_refl) in EP. cbn in EP. subst l. exists []. split; [constructor|]. rewrite E1. change (off []) with 0%nat. rewrite Nat.add_0_r, Nat.ltb_irrefl. cbn [r_lines map]. rewrite app_nil_r. reflexivity.
        * exists [a :: A]. split; [rewrite EP; rewrite <- (app_nil_r G); apply wr_line; [apply edges_of; [discriminate|rewrite EP in Hd; exact Hd|exact LA]|rewrite EP, gwidth_app in Hw; pose proof (gwidth_pos G); lia|exact BG|congruence|congruence|exact I|constructor]|].
          assert (Ho : (0 < off (a :: A))%nat).
          { destruct Hl as (Gr & _). pose proof (graphemes_ne _ _ _ _ Gr) as Ne. rewrite EP in Ne. apply Forall_app in Ne as [Ne _]. exact (off_pos _ _ Ne). }
          rewrite E1. replace (s <? s + off (a :: A))%nat with true by lia. unfold push. cbn [r_lines r_s r_fits]. rewrite map_app. f_equal. cbn [map]. f_equal. rewrite Et, EP, text_of_app, bs_app. unfold off. apply line_at.
      + specialize (E2 ltac:(discriminate)). exists [l]. split; [rewrite <- (app_nil_r l) at 1; change (l ++ []) with (l ++ [] ++ []); apply wr_line; [apply edges_of; [rewrite EP; destruct A, G; discriminate|exact Hd|rewrite EP, app_assoc; apply last_app; [discriminate|exact (solid_last _ SB)]]|exact Hw|constructor|congruence|congruence|exact I|constructor]|].
        assert (Ho : (0 < off l)%nat).
        { destruct Hl as (Gr & _). pose proof (graphemes_ne _ _ _ _ Gr) as Ne. destruct l as [|a l]; [destruct A, G; discriminate|]. exact (off_pos _ _ Ne). }
        rewrite E2. replace (s <? s + off l)%nat with true by lia. unfold push. cbn [r_lines r_s r_fits]. rewrite map_app. f_equal. cbn [map]. f_equal. pose proof (line_at (bs p0) (bs (text_of l)) []) as LA0. rewrite app_nil_r in LA0. rewrite Et. exact LA0.
    - (* the next character *)
      pose proof Hl as (Gl & Sl & Fl & Cl). rewrite El in Gl, Sl, Fl, Cl. pose proof (gr_app _ _ Gl) as GR. apply Forall_app in Sl as [_ Sl]. apply Forall_app in Fl as [_ Fl]. pose proof (Forall_inv Fl) as Fg. cbn beta in Fg.
      destruct g as [[u0 w0] e0]. assert (Eg : text_of ((u0, w0, e0) :: R) = u0 ++ text_of R) by reflexivity. assert (C0 : cluster ce wcw is_variant_selector is_possible_unqualified_half_width is_emoji u0 (text_of R) w0 e0).
      { inversion GR as [|u1 r1 w1 e1 l1 C1 H1 Ex]; subst. rewrite <- (graphemes_text ce wcw _ _ H1) in C1. exact C1. }
      destruct u0 as [|c u]; [destruct (cluster_ne _ _ _ _ _ _ _ _ _ C0 eq_refl)|]. assert (Ha' : at_ w (c :: u ++ text_of R)) by exact Ha. clear Ha. rename Ha' into Ha.
      destruct (wnext_spec ce wcw is_variant_selector is_possible_unqualified_half_width is_emoji emo0 unq0 eq_refl w c _ Ha) as (w' & u' & r' & ww & ee & Enx & Ec & C' & A' & Gw).
      destruct (cluster_det _ _ _ _ _ _ _ _ _ _ _ _ _ C' C0 ltac:(rewrite <- Ec; reflexivity)) as (-> & -> & -> & ->). set (g := (c :: u, w0, e0) : glyph) in *.
      assert (Hc0 : c <> 0) by (destruct (at_cons w c _ Ha) as (_ & H0 & _); exact H0).
      assert (Hp : (length t - length (w_end w') = s + off (P ++ [g]))%nat).
      { destruct A' as (_ & -> & _). rewrite Et, El. change (g :: R) with ([g] ++ R). rewrite app_assoc, text_of_app, bs_app, !app_length. fold s. fold (off (P ++ [g])). unfold off. rewrite ?app_length. lia. }
      assert (Hx : onectrl (wglyph w') = onectrl g) by (rewrite Gw; reflexivity).
      assert (H32 : (c =? 32) = is_space g).
      { destruct (is_space g) eqn:Es; [pose proof (is_space_32 _ Es) as E3; cbn [fst g] in E3; injection E3 as -> _; reflexivity|]. pose proof (Forall_inv Sl Es) as E3. cbn [fst g starts] in E3. rewrite N.eqb_sym. exact E3. }
      assert (Ew : (gwidth (P ++ [g]) = gwidth P + onectrl g)%Z) by (rewrite gwidth_app; cbn; lia).
      assert (Step : forall fuel r, inner t W (length t) (S fuel) w r =
        let r := if is_space g then mkWr (r_s r) (r_word r) (r_word r) (s + off (P ++ [g])) (r_cells r) (r_lines r) else r in
        if (W <? r_cells r + onectrl g)%Z then
          let r := if (r_fits r <=? r_s r)%nat then mkWr (r_s r) (r_word r) (r_word r) (r_word r) (r_cells r) (r_lines r) else r in
          let s := (r_next r + spaces (skipn (r_next r) t))%nat in
          inner t W (length t) fuel (wreset (sub t s (length t - s))) (mkWr s s s (r_next r) 0 (push r))
        else inner t W (length t) fuel w' (mkWr (r_s r) (r_fits r) (if is_space g then r_word r else s + off (P ++ [g]))%nat (r_next r) (r_cells r + onectrl g)%Z (r_lines r))).
      { intros fuel r. cbn [WrapModel.inner]. rewrite Enx, Hp, Hx, H32. replace (c =? 0) with false by lia. cbn [orb]. replace (W =? 0)%Z with false by lia. reflexivity. }
      assert (Hd' : head_solid (P ++ [g])) by (rewrite El in Hd; destruct P; exact Hd).
      assert (Hr : P ++ g :: R = (P ++ [g]) ++ R) by (rewrite <- app_assoc; reflexivity).
      destruct (W <? gwidth P + onectrl g)%Z eqn:Eo.
      + (* the line is full *)
        destruct (is_space g) eqn:Es.
        * pose proof (inv_space s P f wd nx g Hi Es) as Hi'. destruct (inv_facts _ _ _ _ _ Hi' Hd') as (A & G & B & EP & SB & BG & AG & LA & Ef & En & E1 & E2).
          assert (B = []) as ->. { destruct B as [|b B]; [reflexivity|]. exfalso. rewrite app_assoc in EP. destruct (exists_last (l := b :: B) ltac:(discriminate)) as (B' & x & EB). rewrite EB, app_assoc in EP. apply app_inj_tail in EP as [_ <-]. unfold solid in SB. rewrite EB in SB. apply Forall_app in SB as [_ SB]. pose proof (Forall_inv SB). cbn beta in *. congruence. }
          rewrite app_nil_r in EP. assert (NA : A <> []) by (intros ->; rewrite (proj1 AG eq_refl) in EP; destruct P; discriminate). assert (NG : G <> []) by (intro X; apply NA, AG, X).
          assert (Ho : (0 < off A)%nat).
          { pose proof (graphemes_ne _ _ _ _ Gl) as Ne. rewrite Hr, EP in Ne. apply Forall_app in Ne as [Ne _]. apply Forall_app in Ne as [Ne _]. destruct A as [|a A]; [congruence|]. exact (off_pos _ _ Ne). }
          destruct (break l p0 (s + off (P ++ [g])) ls0 (gwidth P) wd A G R IH Hl Et ltac:(rewrite El, Hr, EP, <- app_assoc; reflexivity)) as (fuel & r & E & Rs).
          -- apply edges_of; [exact NA| |exact LA]. rewrite EP in Hd'. exact (head_app _ _ Hd').
          -- assert (Hle : (gwidth (P ++ [g]) = gwidth A + gwidth G)%Z) by (rewrite EP; apply gwidth_app). destruct (exists_last NG) as (G' & x & EG). rewrite EG, app_assoc in EP. apply app_inj_tail in EP as [EP _]. rewrite EP, gwidth_app in Hw. pose proof (gwidth_pos G'). lia.
          -- exact BG.
          -- intro X. contradiction.
          -- left. rewrite <- EP. lia.
          -- rewrite EP. reflexivity.
          -- exists (S fuel), r. split; [|exact Rs]. rewrite Step. cbn [r_s r_fits r_word r_next r_cells r_lines]. rewrite Eo. cbv zeta. cbn [r_s r_fits r_word r_next r_cells r_lines]. replace (wd <=? s)%nat with false by lia. cbn [r_s r_fits r_word r_next r_cells r_lines]. rewrite Ef in *. exact E.
        * destruct (inv_facts _ _ _ _ _ Hi (head_app _ _ Hd')) as (A & G & B & EP & SB & BG & AG & LA & Ef & En & E1 & E2).
          assert (SBg : solid (B ++ [g])) by (apply Forall_app; split; [exact SB|constructor; [exact Es|constructor]]).
          destruct A as [|a A].
          -- rewrite (proj1 AG eq_refl) in EP. cbn [app] in EP. subst B. assert (NP : P <> []) by (intros ->; change (gwidth []) with 0%Z in Eo; change (onectrl g <= W)%Z in Fg; lia). specialize (E2 NP).
             destruct (break l p0 (s + off P) ls0 (gwidth P) (s + off P) P [] (g :: R) IH Hl Et ltac:(rewrite El; reflexivity)) as (fuel & r & E & Rs).
             ++ apply edges_of; [exact NP|exact (head_app _ _ Hd')|exact (solid_last _ SB)].
             ++ exact Hw.
             ++ constructor.
             ++ intros _. exact SB.
             ++ right. split; [exact Es|]. cbn [app word]. rewrite Es. change (g :: word R) with ([g] ++ word R). rewrite app_assoc, gwidth_app. pose proof (gwidth_pos (word R)). lia.
             ++ rewrite app_nil_r. reflexivity.
             ++ exists (S fuel), r. split; [|exact Rs]. rewrite Step. cbn [r_s r_fits r_word r_next r_cells r_lines]. rewrite Eo. cbv zeta. cbn [r_s r_fits r_word r_next r_cells r_lines]. replace (f <=? s)%nat with true by (cbn in Ef; lia). cbn [r_s r_fits r_word r_next r_cells r_lines]. rewrite E2. exact E.
          -- assert (NG : G <> []) by (intro X; apply AG in X; discriminate). specialize (En NG).
             assert (Ho : (0 < off (a :: A))%nat).
             { pose proof (graphemes_ne _ _ _ _ Gl) as Ne. rewrite EP, <- app_assoc in Ne. apply Forall_app in Ne as [Ne _]. exact (off_pos _ _ Ne). }
             assert (Ew2 : (gwidth P = gwidth (a :: A) + gwidth G + gwidth B)%Z) by (rewrite EP, !gwidth_app; lia).
             destruct (break l p0 (s + off ((a :: A) ++ G)) ls0 (gwidth P) wd (a :: A) G (B ++ g :: R) IH Hl Et ltac:(rewrite El, EP, <- !app_assoc; reflexivity)) as (fuel & r & E & Rs).
             ++ apply edges_of; [discriminate| |exact LA]. rewrite EP in Hd'. exact Hd'.
             ++ pose proof (gwidth_pos G). pose proof (gwidth_pos B). lia.
             ++ exact BG.
             ++ intro X. contradiction.
             ++ right. change (g :: R) with ([g] ++ R). rewrite app_assoc. split; [destruct B; [exact Es|exact (Forall_inv SBg)]|]. rewrite (word_solid _ _ SBg), !gwidth_app. pose proof (gwidth_pos (word R)). rewrite Ew2 in Eo. assert (Eg1 : gwidth [g] = onectrl g) by (unfold gwidth; cbn [map fold_right]; lia). rewrite Eg1. lia.
             ++ reflexivity.
             ++ exists (S fuel), r. split; [|exact Rs]. rewrite Step. cbn [r_s r_fits r_word r_next r_cells r_lines]. rewrite Eo. cbv zeta. cbn [r_s r_fits r_word r_next r_cells r_lines]. replace (f <=? s)%nat with false by lia. cbn [r_s r_fits r_word r_next r_cells r_lines]. rewrite Ef, En. exact E.
      + (* it fits *)
        assert (Hw' : (gwidth (P ++ [g]) <= W)%Z) by lia. destruct (is_space g) eqn:Es.
        * destruct (IHR (P ++ [g]) wd wd (s + off (P ++ [g]))%nat w' ltac:(rewrite <- Hr; exact El) (inv_space s P f wd nx g Hi Es) Hw' A') as (fuel & r & E & Rs). exists (S fuel), r. split; [|exact Rs]. rewrite Step. cbn [r_s r_fits r_word r_next r_cells r_lines]. rewrite Eo. rewrite Ew in E. exact E.
        * destruct (IHR (P ++ [g]) f (s + off (P ++ [g]))%nat nx w' ltac:(rewrite <- Hr; exact El) (inv_word s P f wd nx g Hi Es) Hw' A') as (fuel & r & E & Rs). exists (S fuel), r. split; [|exact Rs]. rewrite Step. cbn [r_s r_fits r_word r_next r_cells r_lines]. rewrite Eo. rewrite Ew in E. exact E. }
  destruct Hl as (Gl & Sl & Fl & Cl). exact (Run l [] s s nx0 (wreset (bs (text_of l))) eq_refl (inv_start s nx0) ltac:(cbn; lia) (at_wreset _ Cl)).
Qed.
End Main.
End Wrap.
