(** The invariant of several sessions (HistWorldModel.v). *)
From Verif Require Import Base HistFileModel HistSpec HistFileProofs HistLines HistFindProofs HistDbModel HistDbSpec
  HistDbProofs HistCompactSpec HistCompactProofs HistWorldModel HistReapSpec HistReapProofs HistWorldSpec.

(** ** Files that only grow and get lines marked *)

Definition still (f : bytes) (o : nat) (t : bytes) : Prop :=
  In (o, t) (lines_of f) \/ In (o, BAR :: tl t) (lines_of f).
Definition evolve (f f' : bytes) : Prop := forall o t, In (o, t) (lines_of f) -> still f' o t.

Lemma evolve_refl f : evolve f f.
Proof. intros o t H. left. exact H. Qed.

Lemma still_evolve f f' o t : evolve f f' -> still f o t -> still f' o t.
Proof. intros He [H|H]; apply He in H; auto. destruct H as [H|H]; right; exact H. Qed.

Lemma evolve_trans a b c : evolve a b -> evolve b c -> evolve a c.
Proof. intros H1 H2 o t H. apply (still_evolve b c); auto. Qed.

Lemma evolve_app f g : terminated f -> evolve f (f ++ g).
Proof. intros Ht o t H. left. rewrite lines_of_app by auto. apply in_or_app; auto. Qed.

Lemma evolve_mark f o t : In (o, t) (lines_of f) -> evolve f (wl_mark f o).
Proof.
  intros H o' t' H'. unfold still. rewrite (mark_lines f o t) by auto.
  destruct (Nat.eq_dec o' o) as [->|Hne].
  - right. apply in_map_iff. exists (o, t'). split; auto. unfold mark_line. cbn [fst snd]. rewrite Nat.eqb_refl. reflexivity.
  - left. apply mark_line_in; auto.
Qed.

Lemma safe_mark f o t : In (o, t) (lines_of f) -> safe_file f -> safe_file (wl_mark f o).
Proof.
  intros H Hs. unfold safe_file. rewrite (mark_lines f o t) by auto. apply Forall_forall. intros l Hl.
  apply in_map_iff in Hl as (l0 & <- & Hl0). unfold mark_line. destruct (Nat.eqb (fst l0) o).
  - left. reflexivity.
  - unfold safe_file in Hs. rewrite Forall_forall in Hs. auto.
Qed.

Lemma safe_app f g : terminated f -> safe_file f -> safe_file g -> safe_file (f ++ g).
Proof.
  intros Ht Hf Hg. unfold safe_file. rewrite lines_of_app by auto. apply Forall_app. split; auto.
  rewrite raw_lines_shift0. apply Forall_forall. intros l Hl. apply in_map_iff in Hl as (l0 & <- & Hl0).
  unfold safe_file in Hg. rewrite Forall_forall in Hg. cbn [snd]. auto.
Qed.

Definition line_start (f : bytes) (o : nat) : Prop := exists t, In (o, t) (lines_of f).

Lemma line_start_evolve f f' o : evolve f f' -> line_start f o -> line_start f' o.
Proof. intros He (t & H). apply He in H as [H|H]; eexists; exact H. Qed.

Lemma fits_mark cap f o t : In (o, t) (lines_of f) -> fits cap f -> fits cap (wl_mark f o).
Proof.
  intros H Hf. pose proof (lines_of_bounds _ _ _ H) as Hb.
  apply (fits_lines_map cap f (wl_mark f o) (fun l => Nat.eqb (fst l) o)); auto.
  - eapply mark_terminated; [exact H|apply Hf].
  - apply mark_length. lia.
  - rewrite (mark_lines f o t) by auto. reflexivity.
Qed.

(** What marking keeps. *)
Lemma marks_keep cap os : forall f, Forall (line_start f) os -> fits cap f -> safe_file f ->
  let f' := fold_left wl_mark os f in
  fits cap f' /\ safe_file f' /\ evolve f f' /\ length f' = length f.
Proof.
  induction os as [|o os IH]; intros f H Hf Hs; cbn [fold_left].
  - split; [|split; [|split]]; auto using evolve_refl.
  - destruct (Forall_inv H) as [t Ht]. pose proof (Forall_inv_tail H) as H'.
    pose proof (evolve_mark _ _ _ Ht) as He.
    destruct (IH (wl_mark f o)) as (A & B & C & D).
    + eapply Forall_impl; [|exact H']. intros x Hx. eapply line_start_evolve; eauto.
    + eapply fits_mark; eauto.
    + eapply safe_mark; eauto.
    + split; [|split; [|split]]; auto.
      * eapply evolve_trans; eauto.
      * rewrite D. apply mark_length. pose proof (lines_of_bounds _ _ _ Ht). lia.
Qed.

Section World.
Variable G T : bytes.
Hypothesis HG : 51 < length G.
Hypothesis HT : 51 <= length T.
Let HG1 : 1 < length G. Proof. lia. Qed.

Lemma mark_tag tag rest o t : good_tag tag -> In (o, t) (lines_of (tag ++ LF :: rest)) ->
  exists rest', wl_mark (tag ++ LF :: rest) o = tag ++ LF :: rest'.
Proof.
  intros Hg H. pose proof (lines_of_bounds _ _ _ H) as Hb. pose proof H as H0.
  rewrite lines_tagged in H by auto. destruct H as [E|H].
  - injection E as <- <-. rewrite (mark_bar _ 0 tag); eauto. apply good_tag_bar. auto.
  - apply tagged_prefix. apply raw_lines_bounds in H; [|cbn; lia]. cbn [length fst] in H.
    rewrite (mark_prefix G T HG1 HT) by lia. apply (firstn_tagged G T HG1 HT).
Qed.

Lemma marks_tag tag os : good_tag tag -> forall rest, Forall (line_start (tag ++ LF :: rest)) os ->
  exists rest', fold_left wl_mark os (tag ++ LF :: rest) = tag ++ LF :: rest'.
Proof.
  intro Hg. induction os as [|o os IH]; intros rest H; cbn [fold_left]; [eauto|].
  destruct (Forall_inv H) as [t Ht]. pose proof (Forall_inv_tail H) as H'.
  pose proof (evolve_mark _ _ _ Ht) as He.
  destruct (mark_tag tag rest o t Hg Ht) as [rest' E]. rewrite E in *. apply IH.
  eapply Forall_impl; [|exact H']. intros x Hx. eapply line_start_evolve; eauto.
Qed.

(** Master files: tag unchanged. *)
Definition same_tag (m m' : bytes) : Prop :=
  wf_master (length G) m' /\ safe_file m' /\ evolve m m' /\ tag_of m' = tag_of m.

Lemma tag_of_eq tag rest : good_tag tag -> tag_of (tag ++ LF :: rest) = tag.
Proof. intro Hg. unfold tag_of. rewrite extract_ctag_ok; auto. Qed.

Lemma same_tag_marks m os : wf_master (length G) m -> safe_file m -> Forall (line_start m) os ->
  same_tag m (fold_left wl_mark os m).
Proof.
  intros (Hf & tag & rest & -> & Hg) Hs Ho. destruct (marks_keep (length G) os _ Ho Hf Hs) as (A & B & C & _).
  destruct (marks_tag tag os Hg rest Ho) as [rest' E]. split; [|split; [|split]]; auto.
  - split; auto. rewrite E. eauto.
  - rewrite E, !tag_of_eq by auto. reflexivity.
Qed.

Lemma same_tag_app m x : wf_master (length G) m -> safe_file m -> fits (length G) (m ++ x) -> safe_file (m ++ x) ->
  same_tag m (m ++ x).
Proof.
  intros ((Ht & Hf) & tag & rest & -> & Hg) Hs Hf' Hs'. split; [|split; [|split]]; auto.
  - split; auto. exists tag, (rest ++ x). rewrite <- app_assoc. auto.
  - apply evolve_app. auto.
  - rewrite <- app_assoc. cbn [app]. rewrite !tag_of_eq by auto. reflexivity.
Qed.

Lemma same_tag_trans a b c : same_tag a b -> same_tag b c -> same_tag a c.
Proof.
  intros (A1 & A2 & A3 & A4) (B1 & B2 & B3 & B4). split; [|split; [|split]]; auto.
  - eapply evolve_trans; eauto.
  - congruence.
Qed.

(** ** The invariant *)

Definition rem_inv (used : list bytes) (m : bytes) (r : option bytes) : Prop :=
  match r with
  | None => True
  | Some rf => exists tag os, rf = rem_file tag os /\ Forall (fun o => (N.of_nat o < max_off)%N) os /\
      forall t, tag = Some t -> good_tag t /\ In t used /\ (t = tag_of m -> Forall (line_start m) os)
  end.

Definition id_inv (m : bytes) (s : sess) (id : N) (t : bytes) : Prop :=
  exists o, (N.of_nat o < max_off)%N /\
    ((id = line_id bank_master o /\ (s_ctag s = tag_of m -> still m o t)) \/
     (id = line_id bank_session o /\ exists l, s_lines s = Some l /\ still l o t)).

Definition p_inv (used : list bytes) (m : bytes) (p : proc) : Prop :=
  wf_bank (length G) (s_lines (p_s p)) /\ (forall l, s_lines (p_s p) = Some l -> safe_file l) /\
  rem_inv used m (s_rem (p_s p)) /\ (s_lines (p_s p) = None -> s_rem (p_s p) = None) /\
  In (s_ctag (p_s p)) used /\
  (p_alive p = true -> forall id t, In (id, t) (p_shown p) -> id_inv m (p_s p) id t).

Definition Inv (used : list bytes) (w : world) : Prop :=
  wf_master (length G) (w_m w) /\ safe_file (w_m w) /\ In (tag_of (w_m w)) used /\ Forall good_tag used /\
  Forall (p_inv used (w_m w)) (w_p w).

Lemma rem_inv_wf used m r : rem_inv used m r -> wf_rem r.
Proof.
  destruct r as [rf|]; auto. intros (tag & os & E & Hb & H). exists tag, os. split; auto. split; auto.
  intros t Et. apply H in Et. apply Et.
Qed.

Lemma p_inv_wf used m p : wf_master (length G) m -> p_inv used m p -> wf G m (p_s p).
Proof. intros Hm (A & B & C & D & E & _). split; auto. split; auto. split; auto. eapply rem_inv_wf; eauto. Qed.

Lemma rem_inv_same used m m' r : same_tag m m' -> rem_inv used m r -> rem_inv used m' r.
Proof.
  intros (_ & _ & He & Et). destruct r as [rf|]; auto. intros (tag & os & E & Hb & H). exists tag, os.
  split; auto. split; auto. intros t E2. destruct (H t E2) as (A & B & C). split; auto. split; auto.
  rewrite Et. intro E3. eapply Forall_impl; [|apply C; exact E3]. intros o. apply line_start_evolve. exact He.
Qed.

Lemma id_inv_same m m' s id t : same_tag m m' -> id_inv m s id t -> id_inv m' s id t.
Proof.
  intros (_ & _ & He & Et) (o & Hb & [[E H]|H]); exists o; split; auto. left. split; auto.
  rewrite Et. intro Hc. eapply still_evolve; eauto.
Qed.

Lemma p_inv_same used m m' p : same_tag m m' -> p_inv used m p -> p_inv used m' p.
Proof.
  intros Hs (A & B & C & D & E & F). split; [|split; [|split; [|split; [|split]]]]; auto.
  - eapply rem_inv_same; eauto.
  - intros Ha id t Hin. eapply id_inv_same; eauto.
Qed.

(** A new tag makes all old removals and ids stale. *)
Lemma rem_inv_new used m m' r : ~ In (tag_of m') used -> rem_inv used m r -> rem_inv (tag_of m' :: used) m' r.
Proof.
  intros Hn. destruct r as [rf|]; auto. intros (tag & os & E & Hb & H). exists tag, os.
  split; auto. split; auto. intros t E2. destruct (H t E2) as (A & B & C). split; auto. split; [right; auto|].
  intros E3. subst t. contradiction.
Qed.

Lemma id_inv_new used m m' s id t : ~ In (tag_of m') used -> In (s_ctag s) used -> id_inv m s id t -> id_inv m' s id t.
Proof.
  intros Hn Hc (o & Hb & [[E H]|H]); exists o; split; auto. left. split; auto.
  intro Hx. exfalso. apply Hn. rewrite <- Hx. exact Hc.
Qed.

Lemma p_inv_new used m m' p r : ~ In (tag_of m') used -> rem_inv (tag_of m' :: used) m' r ->
  (r = None <-> s_rem (p_s p) = None) ->
  p_inv used m p -> p_inv (tag_of m' :: used) m' (mkP (p_alive p) (set_rem (p_s p) r) (p_shown p)).
Proof.
  intros Hn Hr Hrn (A & B & C & D & E & F). unfold p_inv, set_rem. cbn [p_s p_alive p_shown s_lines s_rem s_ctag].
  split; [|split; [|split; [|split; [|split]]]]; auto.
  - intro Hx. apply Hrn. auto.
  - right. auto.
  - intros Ha id t Hin. pose proof (id_inv_new used m m' (p_s p) id t Hn E (F Ha id t Hin)) as (o & Hb & H).
    exists o. split; auto.
Qed.

(** ** Lists of processes *)

Lemma Forall_set_nth {A} (P : A -> Prop) l i x : Forall P l -> P x -> Forall P (set_nth l i x).
Proof.
  intros H Hx. revert i. induction H as [|y l Hy Hl IH]; intros [|i]; cbn [set_nth]; constructor; auto.
Qed.

Lemma Forall_nth {A} (P : A -> Prop) l i x : Forall P l -> nth_error l i = Some x -> P x.
Proof. intros H E. rewrite Forall_forall in H. apply H. eapply nth_error_In; eauto. Qed.

Lemma inv_upd used w i m' p : Inv used w -> same_tag (w_m w) m' -> p_inv used m' p ->
  Inv used (upd w i m' p).
Proof.
  intros (A & B & C & C2 & D) Hs Hp. pose proof Hs as (S1 & S2 & S3 & S4).
  split; [|split; [|split; [|split]]]; cbn [upd w_m w_p]; auto.
  - rewrite S4. exact C.
  - apply Forall_set_nth; auto. eapply Forall_impl; [|exact D]. intros q. apply p_inv_same. exact Hs.
Qed.

Lemma same_tag_refl m : wf_master (length G) m -> safe_file m -> same_tag m m.
Proof. intros A B. split; [|split; [|split]]; auto using evolve_refl. Qed.

(** ** Steps *)

(** Changing only the session file. *)
Lemma p_inv_lines used m p l l' : p_inv used m p -> p_alive p = true -> s_lines (p_s p) = Some l ->
  fits (length G) l' -> safe_file l' -> evolve l l' ->
  p_inv used m (mkP true (set_lines (p_s p) (Some l')) (p_shown p)).
Proof.
  intros (A & B & C & D & E & F) Ha El Hf Hs He. unfold p_inv, set_lines. cbn [p_s p_alive p_shown s_lines s_rem s_ctag].
  split; [|split; [|split; [|split; [|split]]]]; auto.
  - intros l0 E0. injection E0 as <-. exact Hs.
  - discriminate.
  - intros _ id t Hin. destruct (F Ha id t Hin) as (o & Hb & [H|(E1 & l0 & E0 & H)]); exists o; split; auto.
    right. split; auto. rewrite El in E0. injection E0 as <-. exists l'. split; auto. eapply still_evolve; eauto.
Qed.

Lemma p_inv_rem used m p r' : p_inv used m p -> p_alive p = true -> rem_inv used m r' -> (r' = None <-> s_rem (p_s p) = None) ->
  p_inv used m (mkP true (set_rem (p_s p) r') (p_shown p)).
Proof.
  intros (A & B & C & D & E & F) Ha Hr Hn. unfold p_inv, set_rem. cbn [p_s p_alive p_shown s_lines s_rem s_ctag].
  split; [|split; [|split; [|split; [|split]]]]; auto. intro Hx. apply Hn. auto.
  intros _. exact (F Ha).
Qed.

Lemma p_eta p : p_alive p = true -> mkP true (p_s p) (p_shown p) = p.
Proof. destruct p as [a s q]. cbn. intros ->. reflexivity. Qed.

(** *** add *)
Lemma plain_safe line : plain line -> safe_line line.
Proof. intros (_ & _ & _ & H). right. exact H. Qed.

Lemma add_file_keep stamp now line f : fits (length G) f -> safe_file f -> plain line -> length line < length G - 1 ->
  (N.of_nat (length f + length line + 20) <= max_off)%N ->
  let f' := add_to_file stamp now line f in
  fits (length G) f' /\ safe_file f' /\ evolve f f'.
Proof.
  intros Hf Hs Hp Hl Hb f'. pose proof Hp as (P1 & P2 & P3 & P4). pose proof Hf as (Ht & _).
  destruct (add_to_file_lines G T HG1 HT stamp now line f Ht P1 P2) as [E Ht'].
  destruct (stamp_line_props G T HG1 HT now) as (Q1 & Q2 & Q3 & Q4 & Q5).
  split; [|split].
  - apply (add_to_file_fits G T HG1 HT); auto; [intros _; lia|]. rewrite (add_to_file_length G T HG1 HT stamp now line f).
    destruct stamp; lia.
  - unfold safe_file, f'. rewrite E. apply Forall_app. split; auto.
    assert (Hst : safe_line (stamp_line now)). { left. reflexivity. }
    destruct stamp; repeat (apply Forall_cons; [cbn [snd]; auto using plain_safe|]); apply Forall_nil.
  - intros o t Hin. left. unfold f'. rewrite E. apply in_or_app. auto.
Qed.

(** *** remove by text *)
Lemma hits_start rm f line : Forall (line_start f) (map v_off (filter (wanted line) (visible rm f))).
Proof.
  apply Forall_forall. intros o Ho. apply in_map_iff in Ho as (e & <- & He). apply filter_In in He as [He _].
  apply visible_from_in in He as (He & _). exists (v_text e). exact He.
Qed.

Lemma find_remove_eq rs line f : fits (length G) f ->
  find_remove (S (length f)) (li_fuel f) line f (li_init f G rs) 0 =
  let hits := filter (wanted line) (visible (removed_in rs) f) in
  Some (fold_left wl_mark (map v_off hits) f, length hits).
Proof.
  intro Hf. destruct (init_good f G rs) as (Hgd & Hp & Hlp).
  { lia. } { apply Hf. } { apply (fits_G G T HG1 HT). exact Hf. }
  rewrite (find_remove_ok (length G)) by (auto; rewrite ?Hlp; unfold measure, li_fuel; rewrite ?Hlp; lia).
  rewrite Hp. reflexivity.
Qed.

Lemma find_defer_eq rs line f r : fits (length G) f ->
  find_defer (S (length f)) (li_fuel f) line f (li_init f G rs) r 0 =
  let hits := filter (wanted line) (visible (removed_in rs) f) in
  Some (fold_left wl_defer (map v_off hits) r, length hits).
Proof.
  intro Hf. destruct (init_good f G rs) as (Hgd & Hp & Hlp).
  { lia. } { apply Hf. } { apply (fits_G G T HG1 HT). exact Hf. }
  rewrite (find_defer_ok (length G)) by (auto; rewrite ?Hlp; unfold measure, li_fuel; rewrite ?Hlp; lia).
  rewrite Hp. reflexivity.
Qed.

Lemma line_start_bound m o : wf_master (length G) m -> line_start m o -> (N.of_nat o < max_off)%N.
Proof. intros ((_ & _ & Hs) & _) (t & H). apply lines_of_bounds in H. lia. Qed.

Lemma rem_inv_defer used m rf os : wf_master (length G) m -> rem_inv used m (Some rf) -> Forall (line_start m) os ->
  rem_inv used m (Some (fold_left wl_defer os rf)).
Proof.
  intros Hm (tag & os0 & -> & Hb & H) Hos. rewrite defer_rem_file. exists tag, (os0 ++ os). split; auto. split.
  - apply Forall_app. split; auto. eapply Forall_impl; [|exact Hos]. intros o. apply line_start_bound. exact Hm.
  - intros t E. destruct (H t E) as (A & B & C). split; auto. split; auto. intro E2. apply Forall_app. auto.
Qed.

(** *** load *)
Lemma combine_in {A} (f : A -> N) (h : A -> bytes) V : forall B D q,
  In q (combine (map f V ++ B) (map h V ++ D)) -> (exists e, In e V /\ q = (f e, h e)) \/ In q (combine B D).
Proof.
  induction V as [|e V IH]; intros B D q H; cbn [map app combine] in H; auto.
  destruct H as [<-|H].
  - left. exists e. split; auto. left; auto.
  - destruct (IH _ _ _ H) as [(e' & He & ->)|H']; auto. left. exists e'. split; auto. right; auto.
Qed.

(** *** remove by id *)
Lemma map_remove_fields id s : s_lines (map_remove id s) = s_lines s /\ s_rem (map_remove id s) = s_rem s /\
  s_ctag (map_remove id s) = s_ctag s.
Proof.
  unfold map_remove. destruct (N.eqb (id_bank id) bank_master).
  - destruct (nth_error _ _) as [x|]; [destruct (N.eqb x id)|]; auto.
  - destruct (nth_error _ _) as [x|]; [destruct (N.eqb x id)|]; auto.
Qed.

Lemma p_inv_fields used m a s s' sh : s_lines s' = s_lines s -> s_rem s' = s_rem s -> s_ctag s' = s_ctag s ->
  p_inv used m (mkP a s sh) -> p_inv used m (mkP a s' sh).
Proof.
  intros E1 E2 E3. unfold p_inv, id_inv. cbn [p_s p_alive p_shown]. rewrite E1, E2, E3. auto.
Qed.

(** The effect of remove(id) on files, for ids as in [id_inv]. *)
Lemma db_remove_cases m s id t m' s' ok : wf_master (length G) m -> id_inv m s id t -> db_remove id m s = (m', s', ok) ->
  (ok = false /\ m' = m /\ s' = s) \/
  (exists o r, ok = true /\ id = line_id bank_master o /\ s_ctag s = tag_of m /\ still m o t /\ s_rem s = Some r /\ m' = m /\
     s' = map_remove id (set_rem s (Some (wl_defer r o)))) \/
  (exists o, ok = true /\ id = line_id bank_master o /\ s_ctag s = tag_of m /\ still m o t /\ s_rem s = None /\ m' = wl_mark m o /\
     s' = map_remove id s) \/
  (exists o l, ok = true /\ id = line_id bank_session o /\ s_lines s = Some l /\ still l o t /\ m' = m /\
     s' = map_remove id (set_lines s (Some (wl_mark l o)))).
Proof.
  intros Hm (o & Hb & Hid) E. unfold db_remove in E.
  destruct Hid as [[-> Hst]|(-> & l & El & Hst)].
  - destruct (id_parts G T HG1 HT bank_master o) as (I1 & I2 & I3); [exact Hb|reflexivity|].
    apply N.eqb_neq in I3. rewrite I3, I1 in E. change (N.eqb bank_master bank_master) with true in E. cbn [andb] in E.
    destruct (tag_ok m (s_ctag s)) eqn:Et; cbn [negb] in E.
    + assert (Hc : s_ctag s = tag_of m).
      { unfold tag_ok in Et. unfold tag_of. destruct (extract_ctag max_ctag_size m) as [x|]; [|discriminate].
        apply eqb_bytes_eq in Et. cbn. auto. }
      unfold lock_remove in E. rewrite I2, I1 in E. change (N.eqb bank_master bank_master) with true in E.
      replace (N.eqb (N.of_nat o) c_max_offset) with false in E.
      2:{ symmetry. apply N.eqb_neq. unfold c_max_offset, max_off in *. lia. }
      rewrite Nat2N.id in E. destruct (s_rem s) as [r|] eqn:Er; injection E as <- <- <-.
      * right. left. exists o, r. split; [|split; [|split; [|split; [|split; [|split]]]]]; auto.
      * right. right. left. exists o. split; [|split; [|split; [|split; [|split; [|split]]]]]; auto.
    + injection E as <- <- <-. left. auto.
  - destruct (id_parts G T HG1 HT bank_session o) as (I1 & I2 & I3); [exact Hb|reflexivity|].
    apply N.eqb_neq in I3. rewrite I3, I1 in E. change (N.eqb bank_session bank_master) with false in E. cbn [andb] in E.
    unfold lock_remove in E. rewrite I2, I1 in E. change (N.eqb bank_session bank_master) with false in E.
    change (N.eqb bank_session bank_session) with true in E.
    replace (N.eqb (N.of_nat o) c_max_offset) with false in E.
    2:{ symmetry. apply N.eqb_neq. unfold c_max_offset, max_off in *. lia. }
    rewrite Nat2N.id, El in E. injection E as <- <- <-. right. right. right. exists o, l.
    split; [|split; [|split; [|split; [|split]]]]; auto.
Qed.

Lemma still_start f o t : still f o t -> line_start f o.
Proof. intros [H|H]; eexists; exact H. Qed.

(** *** compact *)
Lemma k_lines_in o t ks : forall o0, In (o, t) (k_lines o0 ks) ->
  (exists s, t = TIME ++ s) \/ (exists k, In k ks /\ t = k_text k).
Proof.
  induction ks as [|k ks IH]; intros o0 H; [destruct H|]. cbn [k_lines] in H.
  apply in_app_or in H as [H|[H|H]].
  - destruct (k_ts k) as [[i s]|]; [|destruct H]. destruct H as [H|[]]. injection H as _ <-. left. exists s. reflexivity.
  - injection H as _ <-. right. exists k. split; auto. left; auto.
  - destruct (IH _ H) as [H'|(k' & H1 & H2)]; auto. right. exists k'. split; auto. right; auto.
Qed.

Lemma k_remap_line p ks : forall o, In p (k_remap o ks) -> exists t, In (snd p, t) (k_lines o ks).
Proof.
  induction ks as [|k ks IH]; intros o H; [destruct H|]. cbn [k_remap k_lines] in *.
  apply in_app_or in H as [H|[H|H]].
  - destruct (k_ts k) as [[i s]|]; [|destruct H]. destruct H as [<-|[]]. exists (TIME ++ s). left. reflexivity.
  - subst p. exists (k_text k). apply in_or_app. right. left. reflexivity.
  - destruct (IH _ H) as [t Ht]. exists t. apply in_or_app. right. right. exact Ht.
Qed.

Lemma compact_world used tag limit uniq m rems : wf_master (length G) m -> safe_file m -> tag_ranges tag ->
  (N.of_nat (length m + 50) <= max_off)%N -> ~ In (tag_text tag) used ->
  exists m' f, compact_rewrite G T tag limit uniq m rems = Some (m', map f rems, tag_text tag) /\
    wf_master (length G) m' /\ safe_file m' /\ tag_of m' = tag_text tag /\
    (forall r, rem_inv used m r -> rem_inv (tag_text tag :: used) m' (f r) /\ (f r = None <-> r = None)).
Proof.
  intros Hm Hs Hr Hsz Hn.
  destruct (compact_ok G T HG HT tag limit uniq m [] Hm Hr Hsz) as (m' & remap & E & W & Ht & _).
  pose proof Hm as ((Hterm & Hf & Hsz0) & otag & rest & Em & Hg).
  assert (Hf' : lines_fit (length G) (lines_of m)) by (eapply lines_fit_mono; [|exact Hf]; lia).
  destruct (rewrite_ok G m tag limit uniq Hterm Hf') as (rw & Erw & Wrw); [lia|exact Hr|].
  cbv zeta in Wrw. destruct Wrw as (W0 & _ & W2 & _ & W4 & _ & Wg). pose proof (tag_text_good tag Hr) as Hgn.
  assert (Em' : m' = rw_file rw).
  { unfold compact_rewrite in E. rewrite Erw in E. injection E as E _. auto. }
  subst m'. exists (rw_file rw), (compact_removals T m (tag_text tag) (rw_remap rw)).
  split; [|split; [exact W|split; [|split; [exact Ht|]]]].
  - unfold compact_rewrite. rewrite Erw. unfold tag_of in Ht. rewrite Ht. reflexivity.
  - unfold safe_file. rewrite W2. apply Forall_forall. intros [o t] Hin. cbn [snd].
    destruct Hin as [Hin|Hin].
    + injection Hin as _ <-. left. apply good_tag_bar. exact Hgn.
    + apply k_lines_in in Hin as [(s & ->)|(k & Hk & ->)]; [left; reflexivity|].
      apply in_map_iff in Hk as (e & <- & He). cbn [vk k_text]. apply kept_incl in He.
      apply visible_from_in in He as (He & _). unfold safe_file in Hs. rewrite Forall_forall in Hs.
      apply (Hs _ He).
  - intros r Hri. destruct r as [rf|]; [|split; [exact I|tauto]].
    destruct Hri as (tg & os & -> & Hos & Hc). unfold compact_removals.
    assert (Hold : forall t', tg = Some t' -> good_tag t' /\ In t' used) by (intros t' Et; destruct (Hc t' Et) as (? & ? & _); auto).
    assert (Hsame : (forall t', tg = Some t' -> t' <> otag) -> rem_inv (tag_text tag :: used) (rw_file rw) (Some (rem_file tg os))).
    { intros Hne. exists tg, os. split; auto. split; auto. intros t' Et. destruct (Hold t' Et) as [H1 H2].
      split; auto. split; [right; auto|]. rewrite Ht. intro Ex. subst t'. contradiction. }
    destruct tg as [t'|].
    + destruct (Hold t' eq_refl) as [Hg' Hu'].
      rewrite (for_each_removal_tagged T m otag rest t' os HT Em Hg Hg' Hos).
      destruct (eqb_bytes otag t') eqn:Eq.
      * apply eqb_bytes_eq in Eq. subst t'. unfold rewrite_removals. rewrite translate_nums.
        split; [|split; discriminate].
        exists (Some (tag_text tag)), (new_offs (rw_remap rw) (offs_of os)). split; [reflexivity|].
        assert (Hls : Forall (line_start (rw_file rw)) (new_offs (rw_remap rw) (offs_of os))).
        { apply Forall_forall. intros o Ho. unfold new_offs in Ho. apply in_flat_map in Ho as (x & _ & Ho).
          destruct (find _ _) as [[a b]|] eqn:Ef; [|destruct Ho]. apply find_some in Ef as [Ef _]. destruct Ho as [<-|[]].
          rewrite W4 in Ef. apply k_remap_line in Ef as [t Hin]. exists t. rewrite W2. right. exact Hin. }
        split.
        -- eapply Forall_impl; [|exact Hls]. intros o. apply line_start_bound. exact W.
        -- intros t Et. injection Et as <-. split; auto. split; [left; auto|]. auto.
      * split; [|split; discriminate]. apply Hsame. intros t Et Ex. injection Et as <-. subst t'.
        rewrite eqb_bytes_refl in Eq. discriminate.
    + rewrite (for_each_removal_untagged T m otag rest os HT Em Hg). split; [|split; discriminate].
      apply Hsame. discriminate.
Qed.

(** *** Every step *)
Lemma on_alive {A} (w : world) i (f : proc -> option A) (d : option A) (P : option A -> Prop) :
  P d -> (forall p, nth_error (w_p w) i = Some p -> p_alive p = true -> P (f p)) ->
  P (match nth_error (w_p w) i with Some p => if p_alive p then f p else d | None => d end).
Proof. intros Hd Hf. destruct (nth_error (w_p w) i) as [p|] eqn:E; auto. destruct (p_alive p) eqn:Ea; auto. Qed.

Lemma make_removals_new t : make_removals_file None t = rem_file (Some t) [].
Proof. unfold make_removals_file, write_at. cbn [firstn app length repeat Nat.sub skipn rem_file]. rewrite skipn_nil, app_nil_r. reflexivity. Qed.

Lemma safe_nil : safe_file [].
Proof. apply Forall_nil. Qed.

Lemma fits_nil : fits (length G) [].
Proof. split; [left; reflexivity|]. split; [apply Forall_nil|]. unfold max_off. cbn. lia. Qed.

Lemma master_new tag : tag_ranges tag ->
  let m := tag_text tag ++ [LF] in wf_master (length G) m /\ safe_file m /\ tag_of m = tag_text tag.
Proof.
  intros Hr m. pose proof (tag_text_good tag Hr) as Hg. unfold m. pose proof Hg as (_ & _ & Hgl).
  split; [|split].
  - split; [|exists (tag_text tag), []; auto]. split; [right; exists (tag_text tag), LF; auto|]. split.
    + rewrite lines_tagged by auto. apply Forall_cons; [cbn [snd]; lia|apply Forall_nil].
    + rewrite app_length. cbn [length]. unfold max_off. lia.
  - unfold safe_file. rewrite lines_tagged by auto. apply Forall_cons; [|apply Forall_nil]. left. apply good_tag_bar. exact Hg.
  - apply tag_of_eq. exact Hg.
Qed.

Lemma p_inv_new0 used m m' p : ~ In (tag_of m') used -> p_inv used m p -> p_inv (tag_of m' :: used) m' p.
Proof.
  intros Hn (A & B & C & D & E & F). split; [|split; [|split; [|split; [|split]]]]; auto.
  - eapply rem_inv_new; eauto.
  - right. auto.
  - intros Ha id t Hin. eapply id_inv_new; eauto.
Qed.

Lemma put_rem_inv used m m' (f : option bytes -> option bytes) ps : ~ In (tag_of m') used ->
  (forall r, rem_inv used m r -> rem_inv (tag_of m' :: used) m' (f r) /\ (f r = None <-> r = None)) ->
  Forall (p_inv used m) ps ->
  Forall (p_inv (tag_of m' :: used) m') (put_rem ps (map f (map (fun q => s_rem (p_s q)) ps))).
Proof.
  intros Hn Hf. induction 1 as [|p ps Hp _ IH]; [apply Forall_nil|]. unfold put_rem in *. cbn [map combine fst snd].
  apply Forall_cons; auto. pose proof Hp as (_ & _ & C & _). destruct (Hf _ C) as [F1 F2].
  apply (p_inv_new used m); auto.
Qed.

Lemma put_rem_nth (f : option bytes -> option bytes) i p : forall ps, nth_error ps i = Some p ->
  nth_error (put_rem ps (map f (map (fun q => s_rem (p_s q)) ps))) i =
  Some (mkP (p_alive p) (set_rem (p_s p) (f (s_rem (p_s p)))) (p_shown p)).
Proof.
  unfold put_rem. induction i as [|i IH]; intros [|q ps] E; try discriminate; cbn [nth_error map combine fst snd] in *.
  - injection E as ->. reflexivity.
  - auto.
Qed.

Lemma rem_at_lines used m r : wf_master (length G) m -> safe_file m -> rem_inv used m r -> removals_at_lines m r.
Proof.
  intros (_ & tag & rest & -> & Hg) Hs Hr o Ho. destruct r as [rf|]; [|discriminate].
  destruct Hr as (tg & os & -> & _ & H). destruct tg as [t|].
  - destruct (H t eq_refl) as (Hgt & _ & Hl). rewrite spec_removed_tagged in Ho by auto.
    apply andb_true_iff in Ho as [E Ho]. apply eqb_bytes_eq in E. subst t. rewrite tag_of_eq in Hl by auto.
    specialize (Hl eq_refl). rewrite Forall_forall in Hl. apply mem_nat_in in Ho. destruct (Hl o Ho) as [x Hx].
    exists x. split; auto. unfold safe_file in Hs. rewrite Forall_forall in Hs. apply (Hs _ Hx).
  - rewrite spec_removed_untagged in Ho by auto. discriminate.
Qed.

Lemma reap_world used m l r : wf_master (length G) m -> safe_file m -> fits (length G) l -> safe_file l -> rem_inv used m r ->
  (N.of_nat (length m + length l) <= max_off)%N ->
  exists m', reap G T (mkR m (Some l) r) = mkR m' None None /\ same_tag m m'.
Proof.
  intros Hm Hs Hl Hsl Hr Hsz. pose proof (rem_at_lines used m r Hm Hs Hr) as Hrl. pose proof (rem_inv_wf _ _ _ Hr) as Hwr.
  pose proof Hm as ((Ht & Hfm & _) & tag & rest & Em & Hg). rewrite Em in Hrl.
  destruct (reap_mid G T HG1 HT tag rest l r Hg Hwr Hrl [] [] _ (start_mid G T tag rest l r)) as (os2 & Hfin).
  destruct Hfin as (E1 & _ & E2 & _ & El & Er). rewrite <- Em in *.
  destruct (reap G T (mkR m (Some l) r)) as [m' l' r']. cbn [r_m r_l r_r] in *. subst l' r'.
  exists m'. split; [reflexivity|]. unfold marked in E1. rewrite <- Em in E1. cbn [concat app] in E1. subst m'.
  assert (Ha : same_tag m (m ++ l)).
  { apply same_tag_app; auto.
    - split; [|split].
      + destruct Hl as (Hlt & _). destruct Hlt as [->|(g & b & -> & Hb)]; [rewrite app_nil_r; exact Ht|].
        right. exists (m ++ g), b. rewrite app_assoc. auto.
      + rewrite lines_of_app by auto. apply Forall_app. split; auto. rewrite raw_lines_shift0.
        apply Forall_forall. intros x Hx. apply in_map_iff in Hx as (y & <- & Hy). cbn [snd].
        destruct Hl as (_ & Hl & _). unfold lines_fit in Hl. rewrite Forall_forall in Hl. apply (Hl y Hy).
      + rewrite app_length. exact Hsz.
    - apply safe_app; auto. }
  eapply same_tag_trans; [exact Ha|]. pose proof Ha as (A1 & A2 & A3 & A4). apply same_tag_marks; auto.
  apply Forall_forall. intros o Ho. eapply line_start_evolve; [exact A3|].
  apply E2 in Ho. rewrite Em in Ho |- *. apply (seen_iff G T HG1 HT) in Ho as [_ Ho]; auto.
  destruct (Hrl o) as (t & Hin & _); [rewrite Em; exact Ho|]. exists t. rewrite <- Em. exact Hin.
Qed.

Lemma inv_more used w t : good_tag t -> Inv used w -> Inv (t :: used) w.
Proof.
  intros Ht (A & B & C & D & E). split; [|split; [|split; [|split]]]; auto.
  - right. exact C.
  - eapply Forall_impl; [|exact E]. intros p (P1 & P2 & P3 & P4 & P5 & P6).
    split; [|split; [|split; [|split; [|split]]]]; auto; [|right; auto].
    destruct (s_rem (p_s p)) as [rf|]; auto. destruct P3 as (tg & os & R1 & R2 & R3). exists tg, os. split; auto. split; auto.
    intros x Ex. destruct (R3 x Ex) as (X1 & X2 & X3). split; auto. split; auto. right. auto.
Qed.

Lemma inv_step used w st : Inv used w -> step_ok (length G) used w st ->
  exists w', do_step G T w st = Some w' /\ Inv (new_tags st ++ used) w'.
Proof.
  intros HI Hok. pose proof HI as (Hm & Hs & Hu & Hgu & Hp).
  pose proof (same_tag_refl _ Hm Hs) as Hrefl.
  assert (Hid : exists w', Some w = Some w' /\ Inv (new_tags st ++ used) w').
  { exists w. split; [reflexivity|]. destruct st; cbn [new_tags app]; auto; destruct Hok as (Ht & _);
    (apply inv_more; [apply tag_text_good; exact Ht|exact HI]). }
  assert (Hon : forall i f, (forall p, nth_error (w_p w) i = Some p -> p_alive p = true -> p_inv used (w_m w) p ->
      exists w', f p = Some w' /\ Inv (new_tags st ++ used) w') ->
      exists w', (match nth_error (w_p w) i with Some p => if p_alive p then f p else Some w | None => Some w end) = Some w' /\
        Inv (new_tags st ++ used) w').
  { intros i f H. destruct (nth_error (w_p w) i) as [p|] eqn:E; [|exact Hid]. destruct (p_alive p) eqn:Ea; [|exact Hid].
    apply H; auto. eapply Forall_nth; eauto. }
  destruct st as [|i shared erase|i j|i stamp now line|i line|i line|i id|i|i tag|i tag limit uniq|i|j]; cbn [do_step].
  - (* SBegin *)
    eexists. split; [reflexivity|]. split; [|split; [|split; [|split]]]; cbn [w_m w_p new_tags app]; auto.
    apply Forall_app. split; auto. apply Forall_cons; [|apply Forall_nil].
    split; [|split; [|split; [|split; [|split]]]]; cbn [p_s p_shown s_lines s_rem s_ctag]; auto; try discriminate; try exact I.
    intros _ id t [].
  - (* SOpen *)
    apply Hon. intros p Ep Ea (A & B & C & D & E & F). destruct (s_lines (p_s p)) as [l|] eqn:El; [exact Hid|].
    destruct shared; [exact Hid|]. eexists. split; [reflexivity|]. cbn [new_tags app]. apply inv_upd; auto.
    split; [|split; [|split; [|split; [|split]]]]; cbn [p_s p_shown p_alive s_lines s_rem s_ctag wf_bank].
    + apply fits_nil.
    + intros l E0. injection E0 as <-. apply safe_nil.
    + destruct erase; [|exact I]. rewrite make_removals_new. exists (Some (s_ctag (p_s p))), []. split; auto. split; [apply Forall_nil|].
      intros t E0. injection E0 as <-. split; [|split; auto]. rewrite Forall_forall in Hgu. auto.
    + discriminate.
    + exact E.
    + intros _ id t Hin. destruct (F Ea id t Hin) as (o & Hb & [H|(_ & l & E0 & _)]); [|congruence]. exists o. split; auto.
  - destruct Hok.
  - (* SAdd *)
    apply Hon. intros p Ep Ea Hpi. pose proof Hpi as (A & B & C & D & E & F). destruct Hok as (Hpl & Hlen & Hszm & Hszl).
    unfold add_line. destruct (s_lines (p_s p)) as [l|] eqn:El.
    + destruct (add_file_keep stamp now line l) as (K1 & K2 & K3); auto. { eapply Hszl; eauto. }
      eexists. split; [reflexivity|]. cbn [new_tags app]. apply inv_upd; auto. eapply p_inv_lines; eauto.
    + destruct (add_file_keep stamp now line (w_m w)) as (K1 & K2 & K3); auto. { apply Hm. }
      eexists. split; [reflexivity|]. cbn [new_tags app].
      assert (Hst : same_tag (w_m w) (add_to_file stamp now line (w_m w))).
      { destruct (add_to_file_prefix stamp now line (w_m w)) as [x Ex]. rewrite Ex in *. apply same_tag_app; auto. }
      apply inv_upd; auto. rewrite p_eta by auto. eapply p_inv_same; eauto.
  - (* SRemM *)
    apply Hon. intros p Ep Ea Hpi. pose proof Hpi as (A & B & C & D & E & F). unfold remove_text_master.
    destruct (s_rem (p_s p)) as [r|] eqn:Er.
    + rewrite find_defer_eq by apply Hm. cbv zeta. eexists. split; [reflexivity|]. cbn [new_tags app]. apply inv_upd; auto.
      apply p_inv_rem; auto; [|rewrite Er; split; discriminate]. apply rem_inv_defer; auto. apply hits_start.
    + rewrite find_remove_eq by apply Hm. cbv zeta. eexists. split; [reflexivity|]. cbn [new_tags app].
      assert (Hst : same_tag (w_m w) (fold_left wl_mark (map v_off (filter (wanted line)
                      (visible (removed_in (removals_seen T (w_m w) None)) (w_m w)))) (w_m w))).
      { apply same_tag_marks; auto. apply hits_start. }
      apply inv_upd; auto. rewrite p_eta by auto. eapply p_inv_same; eauto.
  - (* SRemS *)
    apply Hon. intros p Ep Ea Hpi. pose proof Hpi as (A & B & C & D & E & F). unfold remove_text_session.
    destruct (s_lines (p_s p)) as [l|] eqn:El.
    + rewrite find_remove_eq by exact A. cbv zeta. eexists. split; [reflexivity|]. cbn [new_tags app]. apply inv_upd; auto.
      destruct (marks_keep (length G) (map v_off (filter (wanted line) (visible (removed_in []) l))) l) as (K1 & K2 & K3 & _); auto.
      { apply hits_start. }
      eapply p_inv_lines; eauto.
    + eexists. split; [reflexivity|]. cbn [new_tags app]. rewrite p_eta by auto. apply inv_upd; auto.
  - (* SRemId *)
    apply Hon. intros p Ep Ea Hpi. pose proof Hpi as (A & B & C & D & E & F). destruct Hok as (p0 & t & E0 & Hin).
    rewrite Ep in E0. injection E0 as <-. pose proof (F Ea id t Hin) as Hidi.
    destruct (db_remove id (w_m w) (p_s p)) as [[m' s'] ok] eqn:Er. eexists. split; [reflexivity|]. cbn [new_tags app].
    destruct (db_remove_cases _ _ _ _ _ _ _ Hm Hidi Er) as [(_ & -> & ->)|[H|[H|H]]].
    + rewrite p_eta by auto. apply inv_upd; auto.
    + destruct H as (o & r & _ & _ & Hc & Hst & Es & -> & ->). apply inv_upd; auto.
      destruct (map_remove_fields id (set_rem (p_s p) (Some (wl_defer r o)))) as (M1 & M2 & M3).
      eapply p_inv_fields; [exact M1|exact M2|exact M3|]. apply p_inv_rem; auto; [|rewrite Es; split; discriminate].
      rewrite Es in C. apply (rem_inv_defer _ _ r [o]); auto. apply Forall_cons; [|apply Forall_nil]. eapply still_start; eauto.
    + destruct H as (o & _ & _ & Hc & Hst & Es & -> & ->).
      assert (Hsm : same_tag (w_m w) (wl_mark (w_m w) o)).
      { apply (same_tag_marks _ [o]); auto. apply Forall_cons; [|apply Forall_nil]. eapply still_start; eauto. }
      apply inv_upd; auto. destruct (map_remove_fields id (p_s p)) as (M1 & M2 & M3).
      eapply p_inv_fields; [exact M1|exact M2|exact M3|]. rewrite p_eta by auto. eapply p_inv_same; eauto.
    + destruct H as (o & l & _ & _ & El & Hst & -> & ->). apply inv_upd; auto.
      destruct (map_remove_fields id (set_lines (p_s p) (Some (wl_mark l o)))) as (M1 & M2 & M3).
      eapply p_inv_fields; [exact M1|exact M2|exact M3|]. rewrite El in A. pose proof (still_start _ _ _ Hst) as Hls.
      destruct (marks_keep (length G) [o] l) as (K1 & K2 & K3 & _); auto.
      eapply p_inv_lines; eauto.
  - (* SLoad *)
    apply Hon. intros p Ep Ea Hpi. pose proof Hpi as (A & B & C & D & E & F).
    destruct (load_internal_ok G T HG1 HT (w_m w) (p_s p)) as (s' & El & Hw & Er & Els & (Hmap & _ & Hct) & _).
    { eapply p_inv_wf; eauto. }
    rewrite El. eexists. split; [reflexivity|]. cbn [new_tags app]. apply inv_upd; auto.
    split; [|split; [|split; [|split; [|split]]]]; cbn [p_s p_shown p_alive]; rewrite ?Er, ?Els; auto.
    + rewrite Hct. exact Hu.
    + intros _ id t Hin. unfold id_inv. rewrite Hct, Els. rewrite Hmap in Hin. unfold stexts, texts, ids, sview in Hin.
      cbn [fst snd] in Hin. rewrite Er, Els, !map_map in Hin.
      apply combine_in in Hin as [(e & He & Eq)|Hin].
      * injection Eq as -> ->. apply visible_from_in in He as (He & _). exists (v_off e). split.
        -- apply line_start_bound with (m := w_m w); auto. exists (v_text e). exact He.
        -- left. split; auto. intros _. left. exact He.
      * rewrite <- (app_nil_r (map (fun x => line_id bank_session (v_off x)) _)), <- (app_nil_r (map v_text _)) in Hin.
        apply combine_in in Hin as [(e & He & Eq)|[]]. injection Eq as -> ->.
        apply view_session_in in He as (l & E1 & E2 & _). exists (v_off e). rewrite E1 in A. cbn [wf_bank] in A. split.
        -- apply lines_of_bounds in E2. destruct A as (_ & _ & A). lia.
        -- right. split; auto. exists l. split; auto. left. exact E2.
  - (* SClear *)
    apply Hon. intros p Ep Ea Hpi. pose proof Hpi as (A & B & C & D & E & F). destruct Hok as (Ht & Hn & _).
    unfold db_clear. cbn [wl_add fst app]. eexists. split; [reflexivity|]. cbn [new_tags app].
    destruct (master_new tag Ht) as (N1 & N2 & N3).
    pose proof (tag_text_good tag Ht) as Hg.
    split; [|split; [|split; [|split]]]; cbn [upd w_m w_p]; auto.
    { left. symmetry. exact N3. }
    apply Forall_set_nth.
    + eapply Forall_impl; [|exact Hp]. intros q. pose proof (p_inv_new0 used (w_m w) (tag_text tag ++ [LF]) q) as Hq.
      rewrite N3 in Hq. auto.
    + split; [|split; [|split; [|split; [|split]]]]; cbn [p_s p_shown p_alive s_lines s_rem s_ctag].
      * destruct (s_lines (p_s p)); cbn [option_map wf_bank]; auto using fits_nil.
      * intros l E0. destruct (s_lines (p_s p)); [|discriminate]. injection E0 as <-. apply safe_nil.
      * destruct (s_rem (p_s p)); cbn [option_map]; [|exact I]. exists None, []. split; [reflexivity|]. split; [apply Forall_nil|]. discriminate.
      * intro E0. destruct (s_lines (p_s p)); [discriminate|]. rewrite D by auto. reflexivity.
      * left. reflexivity.
      * intros _ id t [].
  - (* SCompact *)
    apply Hon. intros p Ep Ea Hpi. destruct Hok as (Ht & Hn & Hsz).
    destruct (compact_world used tag limit uniq (w_m w) (map (fun q => s_rem (p_s q)) (w_p w)) Hm Hs Ht Hsz Hn)
      as (m' & f & Ec & N1 & N2 & N3 & N4).
    rewrite Ec. cbv zeta. rewrite (put_rem_nth f i p) by auto. eexists. split; [reflexivity|]. cbn [new_tags app].
    pose proof (tag_text_good tag Ht) as Hg. rewrite <- N3 in Hn, N4 |- *.
    split; [|split; [|split; [|split]]]; cbn [w_m w_p]; auto.
    { left. reflexivity. } { apply Forall_cons; auto. rewrite N3. exact Hg. }
    apply Forall_set_nth.
    + apply (put_rem_inv used (w_m w)); auto.
    + pose proof Hpi as (A & B & C & D & E & F). destruct (N4 _ C) as [R1 R2].
      split; [|split; [|split; [|split; [|split]]]]; cbn [p_s p_shown p_alive s_lines s_rem s_ctag set_ctag set_rem]; auto.
      * intro E0. apply R2. auto.
      * left. reflexivity.
      * intros _ id t [].
  - (* SEnd *)
    apply Hon. intros p Ep Ea Hpi. eexists. split; [reflexivity|]. cbn [new_tags app]. apply inv_upd; auto.
    destruct Hpi as (A & B & C & D & E & F). split; [|split; [|split; [|split; [|split]]]]; auto; discriminate.
  - (* SReap *)
    destruct (nth_error (w_p w) j) as [q|] eqn:Eq; [|exact Hid]. destruct (p_alive q) eqn:Ea; [exact Hid|].
    pose proof (Forall_nth _ _ _ _ Hp Eq) as (A & B & C & D & E & F). cbn [new_tags app]. eexists. split; [reflexivity|].
    destruct (s_lines (p_s q)) as [l|] eqn:El.
    + destruct (reap_world used (w_m w) l (s_rem (p_s q))) as (m' & Er & Hst); auto. { eapply Hok; eauto. }
      rewrite Er. cbn [r_m r_l r_r]. apply inv_upd; auto.
      split; [|split; [|split; [|split; [|split]]]]; cbn [p_s p_shown p_alive s_lines s_rem s_ctag set_lines set_rem]; auto; try discriminate; try exact I.
    + cbn [reap r_m r_l r_r]. apply inv_upd; auto.
      split; [|split; [|split; [|split; [|split]]]]; cbn [p_s p_shown p_alive s_lines s_rem s_ctag set_lines set_rem]; auto; try discriminate; try exact I.
Qed.

Lemma reach_inv used w : reachable G T used w -> Inv used w.
Proof.
  induction 1 as [tag rest Hm Hg Hs|used w st w' Hr IH Hok E].
  - split; [|split; [|split; [|split]]]; cbn [w_m w_p]; auto. left. rewrite tag_of_eq; auto.
  - destruct (inv_step used w st IH Hok) as (w2 & E2 & H). rewrite E in E2. injection E2 as <-. exact H.
Qed.
End World.
