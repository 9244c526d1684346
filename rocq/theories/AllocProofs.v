(** Proofs about the linear allocator. *)
From Verif Require Import Base AllocModel AllocSpec.

Lemma upd_same {B} (f : nat -> B) k v : upd f k v k = v.
Proof. unfold upd. rewrite Nat.eqb_refl. reflexivity. Qed.
Lemma upd_other {B} (f : nat -> B) k v x : x <> k -> upd f k v x = f x.
Proof. intro H. unfold upd. apply Nat.eqb_neq in H. rewrite H. reflexivity. Qed.

(** The pages of an allocator, from m_ptr on. *)
Fixpoint chain (h : nat -> option (N * option nat)) (p : option nat) (ids : list nat) : Prop :=
  match ids with
  | [] => p = None
  | k :: t => p = Some k /\ exists sz l, h k = Some (sz, l) /\ chain h l t
  end.

Lemma chain_frame h h' ids : (forall k, In k ids -> h' k = h k) -> forall p, chain h p ids -> chain h' p ids.
Proof.
  induction ids as [|k t IH]; intros Hf p H; [exact H|]. destruct H as (-> & sz & l & E & H). split; [reflexivity|].
  exists sz, l. rewrite Hf by (left; reflexivity). split; [exact E|]. apply IH; [|exact H]. intros x Hx. apply Hf. right. exact Hx.
Qed.
Lemma chain_live h ids : forall p k, chain h p ids -> In k ids -> h k <> None.
Proof.
  induction ids as [|x t IH]; intros p k H Hi; [destruct Hi|]. destruct H as (_ & sz & l & E & H). destruct Hi as [<-|Hi]; [congruence|]. eapply IH; eassumption.
Qed.

Lemma free_loop_ok ids : forall fuel p s, chain (hp s) p ids -> NoDup ids -> length ids <= fuel ->
  exists s', free_loop fuel false p s = Some s' /\ mem s' = mem s /\ fresh s' = fresh s /\ al s' = al s /\
  (forall k, In k ids -> hp s' k = None) /\ (forall k, ~ In k ids -> hp s' k = hp s k).
Proof.
  induction ids as [|k t IH]; intros fuel p s Hc Hd Hf.
  - cbn [chain] in Hc. subst p. exists s. split; [destruct fuel; reflexivity|]. split; [reflexivity|]. split; [reflexivity|]. split; [reflexivity|].
    split; [intros k []|reflexivity].
  - destruct Hc as (-> & sz & l & E & Hc). destruct fuel as [|fuel]; [cbn in Hf; lia|]. cbn [free_loop]. unfold get_link, free. rewrite E.
    inversion Hd as [|? ? Hn Hd']; subst.
    set (s1 := S_ (upd (hp s) k None) (mem s) (fresh s) (al s)).
    destruct (IH fuel l s1) as (s' & E1 & E2 & E3 & E4 & E5 & E6).
    + eapply chain_frame; [|exact Hc]. intros x Hx. cbn [hp s1]. apply upd_other. intro K. subst x. contradiction.
    + exact Hd'.
    + cbn [length] in Hf. lia.
    + exists s'. split; [exact E1|]. split; [exact E2|]. split; [exact E3|]. split; [exact E4|]. split.
      * intros x [<-|Hx]; [|apply E5; exact Hx]. rewrite E6 by exact Hn. cbn [hp s1]. apply upd_same.
      * intros x Hx. rewrite E6 by (intro K; apply Hx; right; exact K). cbn [hp s1]. apply upd_other. intro K. subst x. apply Hx. left. reflexivity.
Qed.

Lemma free_loop_keep k t : forall fuel s sz l, hp s k = Some (sz, l) -> chain (hp s) l t -> NoDup (k :: t) -> length t < fuel ->
  exists s', free_loop fuel true (Some k) s = Some s' /\ mem s' = mem s /\ fresh s' = fresh s /\ al s' = al s /\
  hp s' k = Some (sz, None) /\
  (forall x, In x t -> hp s' x = None) /\ (forall x, ~ In x (k :: t) -> hp s' x = hp s x).
Proof.
  intros fuel s sz l E Hc Hd Hf. destruct fuel as [|fuel]; [lia|]. cbn [free_loop]. unfold get_link, set_link. rewrite E.
  inversion Hd as [|? ? Hn Hd']; subst. set (s1 := S_ (upd (hp s) k (Some (sz, None))) (mem s) (fresh s) (al s)).
  destruct (free_loop_ok t fuel l s1) as (s' & E1 & E2 & E3 & E4 & E5 & E6).
  - eapply chain_frame; [|exact Hc]. intros x Hx. cbn [hp s1]. apply upd_other. intro K. subst x. contradiction.
  - exact Hd'.
  - lia.
  - exists s'. split; [exact E1|]. split; [exact E2|]. split; [exact E3|]. split; [exact E4|]. split; [|split].
    + rewrite E6 by exact Hn. cbn [hp s1]. apply upd_same.
    + exact E5.
    + intros x Hx. rewrite E6 by (intro K; apply Hx; right; exact K). cbn [hp s1]. apply upd_other. intro K. subst x. apply Hx. left. reflexivity.
Qed.

(** ** The invariant *)
Definition al_ok (h : nat -> option (N * option nat)) (a : alc) : Prop :=
  (a_max a <= 2147483648)%N /\
  match a_ptr a with
  | None => a_used a = a_max a
  | Some p => (exists l, h p = Some (a_max a, l)) /\ (word <= a_used a <= a_max a)%N
  end.
Definition below (a : alc) (p : piece) : Prop := a_ptr a = Some (p_blk p) -> (p_off p + p_len p <= a_used a)%N.

Record inv_ (m : st) (l : list piece) (ch : nat -> list nat) : Prop := {
  I1 : forall i, chain (hp m) (a_ptr (al m i)) (ch i);
  I2 : forall i, NoDup (ch i);
  I3 : forall i j k, i <> j -> In k (ch i) -> In k (ch j) -> False;
  I4 : forall k, hp m k <> None -> exists i, In k (ch i);
  I5 : forall k, hp m k <> None -> k < fresh m;
  I6 : forall i, al_ok (hp m) (al m i);
  I7 : forall p, In p l -> In (p_blk p) (ch (p_al p)) /\ piece_ok m p /\ below (al m (p_al p)) p;
  I8 : ForallOrdPairs (fun p q => ~ overlap p q) l }.
Definition inv (s : st * list piece) : Prop := exists ch, inv_ (fst s) (snd s) ch.

Lemma chain_len m l ch i : inv_ m l ch -> length (ch i) <= fresh m.
Proof.
  intro H. rewrite <- (seq_length (fresh m) 0). apply NoDup_incl_length; [apply (I2 _ _ _ H)|].
  intros k Hk. apply in_seq. split; [lia|]. cbn. apply (I5 _ _ _ H). eapply chain_live; [apply (I1 _ _ _ H)|exact Hk].
Qed.

Lemma fresh_not_in m l ch i : inv_ m l ch -> ~ In (fresh m) (ch i).
Proof. intros H K. apply (chain_live _ _ _ _ (I1 _ _ _ H i)) in K. apply (I5 _ _ _ H) in K. lia. Qed.

Lemma piece_frame m m' p : (exists l, forall sz l0, hp m (p_blk p) = Some (sz, l0) -> hp m' (p_blk p) = Some (sz, l)) ->
  (forall o, mem m' (p_blk p) o = mem m (p_blk p) o) -> piece_ok m p -> piece_ok m' p.
Proof.
  intros (l & Hh) Hm ((sz & l0 & E & H1 & H2) & H3 & H4). split; [exists sz, l; rewrite (Hh sz l0 E); auto|]. split; [exact H3|].
  intros t Ht. destruct (H4 t Ht) as [H5 H6]. split; [exact H5|]. intros k Hk. rewrite Hm. apply H6. exact Hk.
Qed.

(** ** new_page *)
Lemma new_page_ok ok i m l ch : inv_ m l ch ->
  exists b m', new_page ok i m = Some (b, m') /\ mem m' = mem m /\
  (b = false -> m' = m) /\
  (b = true -> fresh m < fresh m' /\ al m' i = A_ (Some (fresh m)) word (a_max (al m i)) /\ (word <= a_max (al m i))%N /\ inv_ m' l (upd ch i (fresh m :: ch i))).
Proof.
  intro H. unfold new_page. destruct (N.ltb_spec (a_max (al m i)) word) as [Hlt|Hge].
  { exists false, m. split; [reflexivity|]. split; [reflexivity|]. split; [reflexivity|discriminate]. }
  unfold malloc. destruct ok; [|exists false, m; split; [reflexivity|]; split; [reflexivity|]; split; [reflexivity|discriminate]].
  unfold set_link. cbn [hp mem fresh al]. rewrite upd_same. eexists true, _. split; [reflexivity|]. split; [reflexivity|]. split; [discriminate|]. intros _.
  cbn [fresh set_al al mem hp]. split; [lia|]. split; [apply upd_same|]. split; [exact Hge|].
  set (f := fresh m) in *. set (h := upd (upd (hp m) f (Some (a_max (al m i), None))) f (Some (a_max (al m i), a_ptr (al m i)))).
  assert (Hf : h f = Some (a_max (al m i), a_ptr (al m i))) by (unfold h; apply upd_same).
  assert (Ho : forall k, k <> f -> h k = hp m k) by (intros k Hk; unfold h; rewrite !upd_other by exact Hk; reflexivity).
  assert (Hfn : hp m f = None). { destruct (hp m f) eqn:E; [|reflexivity]. assert (K : f < fresh m) by (apply (I5 _ _ _ H); congruence). unfold f in K. lia. }
  assert (Hni : forall j, ~ In f (ch j)) by (intro j; eapply fresh_not_in; exact H).
  assert (Hch : forall j p, chain (hp m) p (ch j) -> chain h p (ch j)).
  { intros j p Hp. eapply chain_frame; [|exact Hp]. intros k Hk. apply Ho. intro K. subst k. exact (Hni j Hk). }
  constructor; cbn [fst snd set_al hp mem fresh al].
  - intro j. unfold upd. destruct (Nat.eqb_spec j i) as [->|Hj].
    + cbn [a_ptr]. split; [reflexivity|]. exists (a_max (al m i)), (a_ptr (al m i)). split; [exact Hf|]. apply Hch. apply (I1 _ _ _ H).
    + apply Hch. apply (I1 _ _ _ H).
  - intro j. unfold upd. destruct (Nat.eqb_spec j i) as [->|Hj]; [constructor; [apply Hni|apply (I2 _ _ _ H)]|apply (I2 _ _ _ H)].
  - intros j1 j2 k Hj K1 K2. unfold upd in K1, K2. destruct (Nat.eqb_spec j1 i) as [->|H1], (Nat.eqb_spec j2 i) as [->|H2]; [contradiction| | |apply (I3 _ _ _ H j1 j2 k); auto].
    + destruct K1 as [<-|K1]; [exact (Hni _ K2)|]. apply (I3 _ _ _ H i j2 k); auto.
    + destruct K2 as [<-|K2]; [exact (Hni _ K1)|]. apply (I3 _ _ _ H j1 i k); auto.
  - intros k Hk. destruct (Nat.eq_dec k f) as [->|Hkf].
    + exists i. rewrite upd_same. left. reflexivity.
    + rewrite Ho in Hk by exact Hkf. destruct (I4 _ _ _ H k Hk) as [j Hj]. exists j. unfold upd. destruct (Nat.eqb_spec j i) as [->|_]; [right; exact Hj|exact Hj].
  - intros k Hk. destruct (Nat.eq_dec k f) as [->|Hkf]; [unfold f; lia|]. rewrite Ho in Hk by exact Hkf. apply (I5 _ _ _ H) in Hk. lia.
  - intro j. unfold upd. destruct (Nat.eqb_spec j i) as [->|Hj].
    + destruct (I6 _ _ _ H i) as [Hm _]. split; [exact Hm|]. cbn [a_ptr a_used a_max]. split; [eexists; exact Hf|lia].
    + destruct (I6 _ _ _ H j) as [Hm Hp]. split; [exact Hm|]. destruct (a_ptr (al m j)) as [p|] eqn:Ep; [|exact Hp].
      destruct Hp as [[l0 Hl] Hu]. split; [|exact Hu]. exists l0. rewrite Ho; [exact Hl|]. intro K. subst p. congruence.
  - intros p Hp. destruct (I7 _ _ _ H p Hp) as (P1 & P2 & P3). split; [|split].
    + unfold upd. destruct (Nat.eqb_spec (p_al p) i) as [E|_]; [right; rewrite <- E; exact P1|exact P1].
    + assert (Hpf : p_blk p <> f) by (intro K; rewrite K in P1; exact (Hni _ P1)).
      destruct P2 as ((sz & l0 & Q1 & Q2) & Q3 & Q4). split; [exists sz, l0; cbn [hp]; fold h; rewrite Ho by exact Hpf; auto|]. split; [exact Q3|exact Q4].
    + unfold below, upd. destruct (Nat.eqb_spec (p_al p) i) as [E|_]; [|exact P3]. cbn [a_ptr]. intro K. injection K as K. rewrite <- K in P1. destruct (Hni _ P1).
  - apply (I8 _ _ _ H).
Qed.

(** ** alloc *)
Lemma no_pair_cons (p : piece) l : ForallOrdPairs (fun p q => ~ overlap p q) l -> Forall (fun q => ~ overlap p q) l ->
  ForallOrdPairs (fun p q => ~ overlap p q) (p :: l).
Proof. intros H1 H2. constructor; auto. Qed.

Lemma alloc_ok ok1 ok2 i size m l ch : inv_ m l ch -> (size < 4294967296)%N ->
  exists r m', alloc ok1 ok2 i size m = Some (r, m') /\ mem m' = mem m /\
  match r with
  | None => exists ch', inv_ m' l ch'
  | Some (k, off) => (0 < size)%N /\ exists ch', inv_ m' (P_ i k off size None :: l) ch'
  end.
Proof.
  intros H Hsz. unfold alloc. destruct (N.eqb_spec size 0) as [->|Hs0].
  { exists None, m. split; [reflexivity|]. split; [reflexivity|]. exists ch. exact H. }
  destruct (oversized (al m i) size) eqn:Eov.
  - (* a page of its own *)
    assert (Hpg : exists b m1 ch1, (match a_ptr (al m i) with Some _ => Some (true, m) | None => new_page ok1 i m end) = Some (b, m1) /\ mem m1 = mem m /\
              inv_ m1 l ch1 /\ (b = true -> exists p, a_ptr (al m1 i) = Some p)).
    { destruct (a_ptr (al m i)) as [p|] eqn:Ep.
      - exists true, m, ch. split; [reflexivity|]. split; [reflexivity|]. split; [exact H|]. intros _. exists p. exact Ep.
      - destruct (new_page_ok ok1 i m l ch H) as (b & m1 & E1 & E2 & E3 & E4). destruct b.
        + destruct (E4 eq_refl) as (_ & Ea & _ & Hi). exists true, m1, (upd ch i (fresh m :: ch i)). split; [exact E1|]. split; [exact E2|]. split; [exact Hi|].
          intros _. rewrite Ea. eexists. reflexivity.
        + exists false, m1, ch. split; [exact E1|]. split; [exact E2|]. rewrite (E3 eq_refl). split; [exact H|discriminate]. }
    destruct Hpg as (b & m1 & ch1 & -> & Em1 & H1 & Hp). destruct b; [|exists None, m1; split; [reflexivity|]; split; [exact Em1|]; exists ch1; exact H1].
    destruct (Hp eq_refl) as [p Ep]. clear Hp. unfold malloc. destruct ok2; [|exists None, m1; split; [reflexivity|]; split; [exact Em1|]; exists ch1; exact H1].
    cbn [al]. rewrite Ep. unfold get_link, set_link. cbn [hp mem fresh al].
    set (f := fresh m1) in *.
    assert (Hni : forall j, ~ In f (ch1 j)) by (intro j; eapply fresh_not_in; exact H1).
    pose proof (I1 _ _ _ H1 i) as Hc. rewrite Ep in Hc. destruct (ch1 i) as [|p0 t] eqn:Ech; [discriminate|]. destruct Hc as (E0 & szp & lp & Elp & Hc). injection E0 as <-.
    assert (Hpf : p <> f). { intro K. subst p. apply (Hni i). rewrite Ech. left. reflexivity. }
    rewrite (upd_other _ _ _ _ Hpf), Elp, upd_same. cbn [hp mem fresh al]. rewrite !(upd_other _ _ _ _ Hpf), Elp.
    eexists (Some (f, word)), _. split; [reflexivity|]. cbn [mem]. split; [exact Em1|]. split; [lia|].
    set (h := upd (upd (upd (hp m1) f (Some ((size + word)%N, None))) f (Some ((size + word)%N, lp))) p (Some (szp, Some f))).
    assert (Hhf : h f = Some ((size + word)%N, lp)) by (unfold h; rewrite upd_other by auto; apply upd_same).
    assert (Hhp : h p = Some (szp, Some f)) by (unfold h; apply upd_same).
    assert (Ho : forall k, k <> f -> k <> p -> h k = hp m1 k) by (intros k K1 K2; unfold h; rewrite !upd_other by auto; reflexivity).
    assert (Hfn : hp m1 f = None). { destruct (hp m1 f) eqn:E; [|reflexivity]. assert (K : f < fresh m1) by (apply (I5 _ _ _ H1); congruence). unfold f in K. lia. }
    assert (Hnd : NoDup (p :: t)) by (rewrite <- Ech; apply (I2 _ _ _ H1)).
    assert (Hpt : ~ In p t) by (inversion Hnd; assumption).
    assert (Hft : ~ In f t) by (intro K; apply (Hni i); rewrite Ech; right; exact K).
    exists (upd ch1 i (p :: f :: t)). constructor; cbn [fst snd set_al hp mem fresh al].
    + intro j. unfold upd. destruct (Nat.eqb_spec j i) as [->|Hj].
      * rewrite Ep. split; [reflexivity|]. exists szp, (Some f). split; [exact Hhp|]. split; [reflexivity|]. exists (size + word)%N, lp. split; [exact Hhf|].
        eapply chain_frame; [|exact Hc]. intros k Hk. apply Ho; intro K; subst k; contradiction.
      * eapply chain_frame; [|apply (I1 _ _ _ H1)]. intros k Hk. apply Ho; intro K; subst k; [exact (Hni j Hk)|].
        apply (I3 _ _ _ H1 j i p Hj Hk). rewrite Ech. left. reflexivity.
    + intro j. unfold upd. destruct (Nat.eqb_spec j i) as [->|Hj]; [|apply (I2 _ _ _ H1)].
      inversion Hnd; subst. constructor; [intros [K|K]; [congruence|contradiction]|]. constructor; assumption.
    + intros j1 j2 k Hj K1 K2. unfold upd in K1, K2.
      assert (Hin : forall x, In x (p :: f :: t) -> x = f \/ In x (ch1 i)) by (intros x [Kx|[Kx|Kx]]; [right; rewrite Ech; left; exact Kx|left; symmetry; exact Kx|right; rewrite Ech; right; exact Kx]).
      destruct (Nat.eqb_spec j1 i) as [->|N1], (Nat.eqb_spec j2 i) as [->|N2]; [contradiction| | |apply (I3 _ _ _ H1 j1 j2 k); auto].
      * destruct (Hin k K1) as [->|K3]; [exact (Hni _ K2)|]. apply (I3 _ _ _ H1 i j2 k); auto.
      * destruct (Hin k K2) as [->|K3]; [exact (Hni _ K1)|]. apply (I3 _ _ _ H1 j1 i k); auto.
    + intros k Hk. destruct (Nat.eq_dec k f) as [->|N1]; [exists i; rewrite upd_same; right; left; reflexivity|].
      destruct (Nat.eq_dec k p) as [->|N2]; [exists i; rewrite upd_same; left; reflexivity|]. rewrite Ho in Hk by auto.
      destruct (I4 _ _ _ H1 k Hk) as [j Hj]. exists j. unfold upd. destruct (Nat.eqb_spec j i) as [->|_]; [|exact Hj]. rewrite Ech in Hj.
      destruct Hj as [Hj|Hj]; [left; exact Hj|right; right; exact Hj].
    + intros k Hk. destruct (Nat.eq_dec k f) as [->|N1]; [unfold f; lia|]. destruct (Nat.eq_dec k p) as [->|N2]; [assert (p < fresh m1) by (apply (I5 _ _ _ H1); congruence); unfold f; lia|].
      rewrite Ho in Hk by auto. apply (I5 _ _ _ H1) in Hk. unfold f. lia.
    + intro j. destruct (I6 _ _ _ H1 j) as [Hm Hq]. split; [exact Hm|]. destruct (a_ptr (al m1 j)) as [q|] eqn:Eq; [|exact Hq].
      destruct Hq as [[l0 Hl] Hu]. split; [|exact Hu]. destruct (Nat.eq_dec q p) as [->|Nq]; [exists (Some f); rewrite Elp in Hl; injection Hl as -> _; exact Hhp|].
      exists l0. rewrite Ho; [exact Hl| |exact Nq]. intro K. subst q. congruence.
    + intros q [<-|Hq].
      * cbn [p_al p_blk p_off p_len p_txt]. rewrite upd_same. split; [right; left; reflexivity|]. split.
        -- split; [|split; [cbn; lia|intros t0 K; discriminate]]. cbn [p_blk p_off p_len hp]. exists (size + word)%N, lp. split; [exact Hhf|]. unfold word. lia.
        -- unfold below. cbn [al p_blk]. rewrite Ep. intro K. injection K as K. contradiction.
      * destruct (I7 _ _ _ H1 q Hq) as (P1 & P2 & P3). split; [|split].
        -- unfold upd. destruct (Nat.eqb_spec (p_al q) i) as [E|_]; [|exact P1]. rewrite E, Ech in P1. destruct P1 as [P1|P1]; [left; exact P1|right; right; exact P1].
        -- assert (Nf : p_blk q <> f) by (intro K; rewrite K in P1; exact (Hni _ P1)).
           destruct P2 as ((sz & l0 & Q1 & Q2) & Q3 & Q4). split; [|split; [exact Q3|exact Q4]]. cbn [hp]. fold h.
           destruct (Nat.eq_dec (p_blk q) p) as [E|Np]; [exists sz, (Some f); rewrite E in Q1 |- *; rewrite Elp in Q1; injection Q1 as -> _; auto|].
           exists sz, l0. rewrite Ho by auto. auto.
        -- exact P3.
    + apply no_pair_cons; [apply (I8 _ _ _ H1)|]. apply Forall_forall. intros q Hq (K & _). cbn [p_blk] in K. destruct (I7 _ _ _ H1 q Hq) as (P1 & _). rewrite <- K in P1. exact (Hni _ P1).
  - (* room in a page *)
    unfold oversized in Eov. apply N.ltb_ge in Eov.
    assert (Hpg : exists b m1 ch1, (if fits (al m i) size then Some (true, m) else new_page ok1 i m) = Some (b, m1) /\ mem m1 = mem m /\ inv_ m1 l ch1 /\
              (b = true -> exists p u mx, al m1 i = A_ (Some p) u mx /\ (u + size <= mx)%N)).
    { pose proof (I6 _ _ _ H i) as [Hmx Hp]. destruct (fits (al m i) size) eqn:Ef.
      - unfold fits in Ef. apply N.leb_le in Ef. assert (Hu : (a_used (al m i) <= a_max (al m i))%N) by (destruct (a_ptr (al m i)); lia).
        unfold u32 in Ef. rewrite N.mod_small in Ef by (unfold word in *; lia).
        exists true, m, ch. split; [reflexivity|]. split; [reflexivity|]. split; [exact H|]. intros _. destruct (al m i) as [[p|] u mx]; cbn [a_ptr a_used a_max] in *; [|lia].
        exists p, u, mx. split; [reflexivity|exact Ef].
      - destruct (new_page_ok ok1 i m l ch H) as (b & m1 & E1 & E2 & E3 & E4). destruct b.
        + destruct (E4 eq_refl) as (_ & Ea & _ & Hi). exists true, m1, (upd ch i (fresh m :: ch i)). split; [exact E1|]. split; [exact E2|]. split; [exact Hi|].
          intros _. eexists _, _, _. split; [exact Ea|]. unfold word in *. lia.
        + exists false, m1, ch. split; [exact E1|]. split; [exact E2|]. rewrite (E3 eq_refl). split; [exact H|discriminate]. }
    destruct Hpg as (b & m1 & ch1 & -> & Em1 & H1 & Hp). destruct b; [|exists None, m1; split; [reflexivity|]; split; [exact Em1|]; exists ch1; exact H1].
    destruct (Hp eq_refl) as (p & u & mx & Ea & Hfit). clear Hp. cbv zeta. rewrite Ea. cbn [a_ptr a_used a_max].
    pose proof (I6 _ _ _ H1 i) as Hok. rewrite Ea in Hok. destruct Hok as [Hmx [[l0 Hl0] Hu]]. cbn [a_max a_used] in Hmx, Hu, Hl0.
    unfold u32. rewrite N.mod_small by lia.
    eexists (Some (p, u)), _. split; [reflexivity|]. split; [exact Em1|]. split; [lia|]. exists ch1.
    assert (Hin : In p (ch1 i)). { pose proof (I1 _ _ _ H1 i) as Hc. rewrite Ea in Hc. destruct (ch1 i); [discriminate|]. destruct Hc as [K _]. injection K as <-. left. reflexivity. }
    constructor; cbn [set_al hp mem fresh al].
    + intro j. unfold upd. destruct (Nat.eqb_spec j i) as [->|Hj]; [|apply (I1 _ _ _ H1)]. pose proof (I1 _ _ _ H1 i) as Hc. rewrite Ea in Hc. exact Hc.
    + apply (I2 _ _ _ H1).
    + apply (I3 _ _ _ H1).
    + apply (I4 _ _ _ H1).
    + apply (I5 _ _ _ H1).
    + intro j. unfold upd. destruct (Nat.eqb_spec j i) as [->|Hj]; [|apply (I6 _ _ _ H1)]. split; [exact Hmx|]. cbn [a_ptr a_used a_max]. split; [exists l0; exact Hl0|lia].
    + intros q [<-|Hq].
      * cbn [p_al p_blk p_off p_len p_txt]. split; [exact Hin|]. split.
        -- split; [|split; [cbn; lia|intros t0 K; discriminate]]. cbn [p_blk p_off p_len hp]. exists mx, l0. split; [exact Hl0|lia].
        -- unfold below. cbn [al p_al p_off p_len]. rewrite upd_same. cbn [a_used]. lia.
      * destruct (I7 _ _ _ H1 q Hq) as (P1 & P2 & P3). split; [exact P1|]. split; [exact P2|]. unfold below, upd. destruct (Nat.eqb_spec (p_al q) i) as [E|_]; [|exact P3].
        cbn [a_ptr a_used]. unfold below in P3. rewrite E, Ea in P3. cbn [a_ptr a_used] in P3. intro K. specialize (P3 K). lia.
    + apply no_pair_cons; [apply (I8 _ _ _ H1)|]. apply Forall_forall. intros q Hq (K1 & K2 & K3). cbn [p_blk p_off p_len] in *.
      destruct (I7 _ _ _ H1 q Hq) as (P1 & P2 & P3).
      assert (Ei : p_al q = i). { destruct (Nat.eq_dec (p_al q) i) as [E|N]; [exact E|]. exfalso. rewrite <- K1 in P1. apply (I3 _ _ _ H1 (p_al q) i p); auto. }
      unfold below in P3. rewrite Ei, Ea in P3. cbn [a_ptr a_used] in P3. rewrite K1 in P3. specialize (P3 eq_refl). lia.
Qed.

(** ** store *)
Lemma store_ok ok1 ok2 i str m l ch : inv_ m l ch -> (N.of_nat (length str) + 1 < 4294967296)%N ->
  exists r m', store ok1 ok2 i str m = Some (r, m') /\
  match r with
  | None => exists ch', inv_ m' l ch'
  | Some (k, off) => exists ch', inv_ m' (P_ i k off (N.of_nat (length str) + 1) (Some (str ++ [0%N])) :: l) ch'
  end.
Proof.
  intros H Hsz. unfold store. unfold u32. rewrite N.mod_small by exact Hsz.
  destruct (alloc_ok ok1 ok2 i (N.of_nat (length str) + 1) m l ch H Hsz) as (r & m' & -> & Em & Hr). destruct r as [[k off]|]; [|exists None, m'; split; [reflexivity|exact Hr]].
  destruct Hr as (_ & ch' & H'). eexists (Some (k, off)), _. split; [reflexivity|]. exists ch'.
  set (len := (N.of_nat (length str) + 1)%N) in *. set (p0 := P_ i k off len None) in *.
  assert (Hl : N.of_nat (length (str ++ [0%N])) = len) by (rewrite app_length; cbn [length]; unfold len; lia).
  pose proof (I8 _ _ _ H') as Hpairs. inversion Hpairs as [|? ? Hno Hrest]; subst.
  assert (Hother : forall q, In q l -> forall n, (n < p_len q)%N -> write_mem (mem m') k off (str ++ [0%N]) (p_blk q) (p_off q + n) = mem m' (p_blk q) (p_off q + n)%N).
  { intros q Hq n Hn. unfold write_mem. rewrite Hl. rewrite Forall_forall in Hno. specialize (Hno q Hq). unfold overlap in Hno. cbn [p0 p_blk p_off p_len] in Hno.
    destruct (Nat.eqb_spec (p_blk q) k) as [E|_]; [|reflexivity]. cbn [andb]. destruct (N.leb_spec off (p_off q + n)); [|reflexivity]. cbn [andb].
    destruct (N.ltb_spec (p_off q + n) (off + len)); [|reflexivity]. exfalso. apply Hno. split; [symmetry; exact E|]. lia. }
  constructor; cbn [hp mem fresh al].
  - apply (I1 _ _ _ H').
  - apply (I2 _ _ _ H').
  - apply (I3 _ _ _ H').
  - apply (I4 _ _ _ H').
  - apply (I5 _ _ _ H').
  - apply (I6 _ _ _ H').
  - intros q [<-|Hq].
    + destruct (I7 _ _ _ H' p0 (or_introl eq_refl)) as (P1 & (Q1 & Q2 & _) & P3). split; [exact P1|]. split; [|exact P3]. split; [exact Q1|]. split; [exact Q2|].
      cbn [p_txt p_blk p_off p_len]. intros t E. injection E as <-. split; [exact Hl|]. intros n Hn. cbn [mem]. unfold write_mem. rewrite Nat.eqb_refl. cbn [andb].
      destruct (N.leb_spec off (off + N.of_nat n)); [|lia]. cbn [andb]. destruct (N.ltb_spec (off + N.of_nat n) (off + N.of_nat (length (str ++ [0%N])))); [|lia]. f_equal. lia.
    + destruct (I7 _ _ _ H' q (or_intror Hq)) as (P1 & (Q1 & Q2 & Q3) & P3). split; [exact P1|]. split; [|exact P3]. split; [exact Q1|]. split; [exact Q2|].
      intros t E. destruct (Q3 t E) as [R1 R2]. split; [exact R1|]. intros n Hn. cbn [mem]. rewrite Hother; [apply R2; exact Hn|exact Hq|lia].
  - constructor; [|exact Hrest]. exact Hno.
Qed.

(** ** Freeing *)
Lemma pairs_filter (f : piece -> bool) l : ForallOrdPairs (fun p q => ~ overlap p q) l -> ForallOrdPairs (fun p q => ~ overlap p q) (filter f l).
Proof.
  induction 1 as [|p l Hp Hl IH]; [constructor|]. cbn [filter]. destruct (f p); [|exact IH]. constructor; [|exact IH].
  rewrite Forall_forall in *. intros q Hq. apply filter_In in Hq as [Hq _]. apply Hp. exact Hq.
Qed.

Lemma in_drop i l p : In p (drop i l) <-> In p l /\ p_al p <> i.
Proof. unfold drop. rewrite filter_In. rewrite negb_true_iff, Nat.eqb_neq. tauto. Qed.

Lemma free_chain_ok keep i m l ch : inv_ m l ch ->
  exists m' ch', free_chain keep i m = Some m' /\ inv_ m' (drop i l) ch' /\ a_max (al m' i) = a_max (al m i) /\
  (forall j, j <> i -> al m' j = al m j) /\ (keep = false -> a_ptr (al m' i) = None /\ ch' i = []).
Proof.
  intro H. unfold free_chain. cbv zeta. set (a := al m i) in *.
  pose proof (I1 _ _ _ H i) as Hc. fold a in Hc. pose proof (chain_len _ _ _ i H) as Hlen. pose proof (I2 _ _ _ H i) as Hnd.
  (* everything but allocator i *)
  assert (Hgen : forall m' c', mem m' = mem m -> fresh m' = fresh m -> (forall j, j <> i -> al m' j = al m j) ->
            chain (hp m') (a_ptr (al m' i)) c' -> NoDup c' -> incl c' (ch i) -> al_ok (hp m') (al m' i) ->
            (forall k, In k (ch i) -> ~ In k c' -> hp m' k = None) -> (forall k, ~ In k (ch i) -> hp m' k = hp m k) ->
            (forall k, hp m' k <> None -> hp m k <> None) ->
            inv_ m' (drop i l) (upd ch i c')).
  { intros m' c' Em Ef Ea Hc' Hn' Hi' Hok Hgone Hkeep Hlive.
    assert (Hoth : forall j k, j <> i -> In k (ch j) -> hp m' k = hp m k).
    { intros j k Hj Hk. apply Hkeep. intro K. apply (I3 _ _ _ H j i k); auto. }
    constructor.
    - intro j. unfold upd. destruct (Nat.eqb_spec j i) as [->|Hj]; [exact Hc'|]. rewrite Ea by exact Hj. eapply chain_frame; [|apply (I1 _ _ _ H)]. intros k Hk. apply (Hoth j); auto.
    - intro j. unfold upd. destruct (Nat.eqb_spec j i) as [->|Hj]; [exact Hn'|apply (I2 _ _ _ H)].
    - intros j1 j2 k Hj K1 K2. unfold upd in K1, K2. destruct (Nat.eqb_spec j1 i) as [->|N1], (Nat.eqb_spec j2 i) as [->|N2].
      + contradiction.
      + apply (I3 _ _ _ H i j2 k); auto.
      + apply (I3 _ _ _ H j1 i k); auto.
      + apply (I3 _ _ _ H j1 j2 k); auto.
    - intros k Hk. destruct (I4 _ _ _ H k (Hlive k Hk)) as [j Hj]. destruct (Nat.eq_dec j i) as [->|N].
      + exists i. rewrite upd_same. destruct (in_dec Nat.eq_dec k c') as [Hin|Hout]; [exact Hin|]. rewrite Hgone in Hk by auto. contradiction.
      + exists j. rewrite upd_other by exact N. exact Hj.
    - intros k Hk. rewrite Ef. apply (I5 _ _ _ H). apply Hlive. exact Hk.
    - intro j. destruct (Nat.eq_dec j i) as [->|N]; [exact Hok|]. rewrite Ea by exact N. destruct (I6 _ _ _ H j) as [Hm Hp]. split; [exact Hm|].
      pose proof (I1 _ _ _ H j) as Hcj. destruct (a_ptr (al m j)) as [p|]; [|exact Hp]. destruct Hp as [[l0 Hl] Hu]. split; [|exact Hu]. exists l0. rewrite (Hoth j); [exact Hl|exact N|].
      destruct (ch j); [discriminate|]. destruct Hcj as [K _]. injection K as <-. left. reflexivity.
    - intros p Hp. apply in_drop in Hp as [Hp Np]. destruct (I7 _ _ _ H p Hp) as (P1 & P2 & P3). split; [rewrite upd_other by exact Np; exact P1|]. split.
      + destruct P2 as ((sz & l0 & Q1 & Q2) & Q3 & Q4). split; [exists sz, l0; rewrite (Hoth _ _ Np P1); auto|]. split; [exact Q3|]. rewrite Em. exact Q4.
      + rewrite Ea by exact Np. exact P3.
    - apply pairs_filter. apply (I8 _ _ _ H). }
  destruct keep.
  - destruct (a_ptr a) as [k|] eqn:Ep.
    + destruct (ch i) as [|k0 t] eqn:Ech; [discriminate|]. destruct Hc as (E0 & sz & l0 & El & Hc). injection E0 as <-.
      destruct (I6 _ _ _ H i) as [Hmx Hok]. fold a in Hmx, Hok. rewrite Ep in Hok. destruct Hok as [[l1 Hl1] Hu]. rewrite El in Hl1. injection Hl1 as -> ->.
      destruct (free_loop_keep k t (fresh m) (set_al m i (A_ (Some k) word (a_max a))) (a_max a) l1) as (m' & E1 & E2 & E3 & E4 & E5 & E6 & E7); [exact El|exact Hc|exact Hnd|cbn [length] in Hlen; lia|].
      exists m', (upd ch i [k]). split; [exact E1|]. cbn [set_al mem fresh al hp] in E2, E3, E4, E6, E7.
      assert (Eai : al m' i = A_ (Some k) word (a_max a)) by (rewrite E4; apply upd_same).
      assert (Eaj : forall j, j <> i -> al m' j = al m j) by (intros j Hj; rewrite E4; apply upd_other; exact Hj).
      split; [|split; [rewrite Eai; reflexivity|split; [exact Eaj|discriminate]]].
      apply Hgen; auto.
      * rewrite Eai. split; [reflexivity|]. exists (a_max a), None. split; [exact E5|reflexivity].
      * constructor; [intros []|constructor].
      * intros x [<-|[]]. left. reflexivity.
      * rewrite Eai. split; [exact Hmx|]. cbn [a_ptr a_used a_max]. split; [exists None; exact E5|lia].
      * intros x [<-|Hx] Hnx; [destruct Hnx; left; reflexivity|apply E6; exact Hx].
      * intros x Hx. destruct (Nat.eq_dec x k) as [->|N]; [congruence|]. destruct (in_dec Nat.eq_dec x t) as [K|K]; [rewrite E6 in Hx by exact K; contradiction|].
        rewrite E7 in Hx; [exact Hx|]. intros [K2|K2]; [congruence|contradiction].
    + assert (Eml : forall f s, free_loop f true None s = Some s) by (intros [|f] s; reflexivity). rewrite Eml.
      destruct (ch i) as [|k0 t] eqn:Ech; [|destruct Hc as [K _]; discriminate].
      destruct (I6 _ _ _ H i) as [Hmx Hok].
      eexists _, (upd ch i []). split; [reflexivity|]. cbn [set_al al]. split; [|split; [rewrite upd_same; reflexivity|split; [intros j Hj; apply upd_other; exact Hj|discriminate]]].
      apply Hgen; cbn [set_al mem fresh al hp].
      * reflexivity.
      * reflexivity.
      * intros j Hj. apply upd_other. exact Hj.
      * rewrite upd_same. reflexivity.
      * constructor.
      * intros x [].
      * rewrite upd_same. split; [exact Hmx|reflexivity].
      * intros k [].
      * reflexivity.
      * auto.
  - destruct (free_loop_ok (ch i) (fresh m) (a_ptr a) (set_al m i (A_ None (match a_ptr a with Some _ => a_max a | None => a_max a end) (a_max a)))) as (m' & E1 & E2 & E3 & E4 & E5 & E6); [exact Hc|exact Hnd|exact Hlen|].
    exists m', (upd ch i []). split; [exact E1|]. cbn [set_al mem fresh al hp] in E2, E3, E4, E6.
    assert (Eai : al m' i = A_ None (a_max a) (a_max a)) by (rewrite E4, upd_same; destruct (a_ptr a); reflexivity).
    assert (Eaj : forall j, j <> i -> al m' j = al m j) by (intros j Hj; rewrite E4; apply upd_other; exact Hj).
    split; [|split; [rewrite Eai; reflexivity|split; [exact Eaj|intros _; rewrite Eai, upd_same; split; reflexivity]]].
    destruct (I6 _ _ _ H i) as [Hmx _].
    apply Hgen.
    + exact E2.
    + exact E3.
    + exact Eaj.
    + rewrite Eai. reflexivity.
    + constructor.
    + intros x [].
    + rewrite Eai. split; [exact Hmx|reflexivity].
    + intros k Hk _. apply E5. exact Hk.
    + exact E6.
    + intros x Hx. destruct (in_dec Nat.eq_dec x (ch i)) as [K|K]; [rewrite E5 in Hx by exact K; contradiction|]. rewrite E6 in Hx by exact K. exact Hx.
Qed.

(** Replacing an allocator that owns nothing by another that owns nothing. *)
Lemma set_empty_ok i size m l ch : inv_ m l ch -> ch i = [] -> (size <= 2147483648)%N -> inv_ (set_al m i (A_ None size size)) l ch.
Proof.
  intros H Hch Hs. constructor; cbn [set_al hp mem fresh al].
  - intro j. unfold upd. destruct (Nat.eqb_spec j i) as [->|Hj]; [rewrite Hch; reflexivity|apply (I1 _ _ _ H)].
  - apply (I2 _ _ _ H).
  - apply (I3 _ _ _ H).
  - apply (I4 _ _ _ H).
  - apply (I5 _ _ _ H).
  - intro j. unfold upd. destruct (Nat.eqb_spec j i) as [->|Hj]; [split; [exact Hs|reflexivity]|apply (I6 _ _ _ H)].
  - intros p Hp. destruct (I7 _ _ _ H p Hp) as (P1 & P2 & P3). split; [exact P1|]. split; [exact P2|]. unfold below, upd. destruct (Nat.eqb_spec (p_al p) i) as [E|_]; [|exact P3]. discriminate.
  - apply (I8 _ _ _ H).
Qed.

Lemma pairs_map (f : piece -> piece) l : (forall p q, overlap (f p) (f q) -> overlap p q) ->
  ForallOrdPairs (fun p q => ~ overlap p q) l -> ForallOrdPairs (fun p q => ~ overlap p q) (map f l).
Proof.
  intros Hf. induction 1 as [|p l Hp Hl IH]; [constructor|]. cbn [map]. constructor; [|exact IH].
  rewrite Forall_forall in *. intros q Hq. apply in_map_iff in Hq as (q0 & <- & Hq0). intro K. apply (Hp q0 Hq0). apply Hf. exact K.
Qed.

Lemma move_ok i j m l ch : inv_ m l ch ->
  exists m' ch', move i j m = Some m' /\ inv_ m' (if Nat.eqb i j then drop i l else give i j (drop i l)) ch'.
Proof.
  intro H. unfold move. destruct (free_chain_ok false i m l ch H) as (m1 & ch1 & -> & H1 & E1 & E2 & E3). destruct (E3 eq_refl) as [E4 E5]. clear E3.
  cbv zeta. destruct (Nat.eqb_spec i j) as [<-|Hij].
  - eexists _, ch1. split; [reflexivity|]. cbn [set_al al]. rewrite upd_same. cbn [a_max].
    assert (Ha : al m1 i = A_ None (a_max (al m1 i)) (a_max (al m1 i))).
    { destruct (I6 _ _ _ H1 i) as [_ K]. rewrite E4 in K. destruct (al m1 i) as [p u mx]. cbn in *. subst. reflexivity. }
    pose proof (set_empty_ok i (a_max (al m1 i)) m1 (drop i l) ch1 H1 E5 (proj1 (I6 _ _ _ H1 i))) as H2.
    constructor; cbn [hp mem fresh al set_al]; try apply H2.
    + intro j. pose proof (I1 _ _ _ H2 j) as K. cbn [set_al hp al] in K. unfold upd in *. destruct (Nat.eqb j i); exact K.
    + intro j. pose proof (I6 _ _ _ H2 j) as K. cbn [set_al hp al] in K. unfold upd in *. destruct (Nat.eqb j i); exact K.
    + intros p Hp. pose proof (I7 _ _ _ H2 p Hp) as (P1 & P2 & P3). split; [exact P1|]. split; [exact P2|]. cbn [set_al al] in P3. unfold below, upd in *. destruct (Nat.eqb (p_al p) i); exact P3.
  - eexists _, (upd (upd ch1 i (ch1 j)) j []). split; [reflexivity|]. cbn [set_al al]. rewrite (upd_other _ i) by auto.
    set (o := al m1 j). assert (Ho : A_ (a_ptr o) (a_used o) (a_max o) = o) by (destruct o; reflexivity). rewrite Ho.
    constructor; cbn [set_al hp mem fresh al].
    + intro k. unfold upd. destruct (Nat.eqb_spec k j) as [->|Nj]; [reflexivity|]. destruct (Nat.eqb_spec k i) as [->|Ni]; apply (I1 _ _ _ H1).
    + intro k. unfold upd. destruct (Nat.eqb_spec k j) as [->|Nj]; [constructor|]. destruct (Nat.eqb_spec k i) as [->|Ni]; apply (I2 _ _ _ H1).
    + intros k1 k2 x Hk K1 K2. unfold upd in K1, K2. destruct (Nat.eqb_spec k1 j) as [->|N1]; [destruct K1|]. destruct (Nat.eqb_spec k2 j) as [->|N2]; [destruct K2|].
      destruct (Nat.eqb_spec k1 i) as [->|M1], (Nat.eqb_spec k2 i) as [->|M2]; [contradiction| | |apply (I3 _ _ _ H1 k1 k2 x); auto].
      * apply (I3 _ _ _ H1 j k2 x); auto.
      * apply (I3 _ _ _ H1 k1 j x); auto.
    + intros k Hk. destruct (I4 _ _ _ H1 k Hk) as [x Hx]. destruct (Nat.eq_dec x j) as [->|Nj].
      * exists i. rewrite upd_other by exact Hij. rewrite upd_same. exact Hx.
      * exists x. rewrite upd_other by exact Nj. destruct (Nat.eq_dec x i) as [->|Ni]; [rewrite E5 in Hx; destruct Hx|]. rewrite upd_other by exact Ni. exact Hx.
    + apply (I5 _ _ _ H1).
    + intro k. unfold upd. destruct (Nat.eqb_spec k j) as [->|Nj]; [split; [apply (I6 _ _ _ H1 j)|reflexivity]|]. destruct (Nat.eqb_spec k i) as [->|Ni]; apply (I6 _ _ _ H1).
    + intros p Hp. unfold give in Hp. apply in_map_iff in Hp as (q & Eq & Hq). destruct (I7 _ _ _ H1 q Hq) as (P1 & P2 & P3). apply in_drop in Hq as [_ Nq].
      destruct (Nat.eqb_spec (p_al q) j) as [E|N].
      * subst p. cbn [p_al p_blk]. rewrite (upd_other _ j) by exact Hij. rewrite upd_same. rewrite E in P1. split; [exact P1|]. split; [exact P2|].
        unfold below. cbn [p_al p_blk p_off p_len]. rewrite (upd_other _ j) by exact Hij. rewrite upd_same. unfold below in P3. rewrite E in P3. exact P3.
      * subst p. rewrite (upd_other _ j) by exact N. rewrite upd_other by exact Nq. split; [exact P1|]. split; [exact P2|].
        unfold below. rewrite (upd_other _ j) by exact N. rewrite upd_other by exact Nq. exact P3.
    + apply pairs_map; [|apply (I8 _ _ _ H1)]. intros p q. unfold overlap. destruct (Nat.eqb (p_al p) j), (Nat.eqb (p_al q) j); cbn [p_blk p_off p_len]; auto.
Qed.

(** ** All operations *)
Lemma step_ok s o : inv s -> op_ok o -> exists s', step s o = Some s' /\ inv s'.
Proof.
  destruct s as [m l]. intros [ch H] Ho. cbn [fst snd] in H. destruct o as [i size|ok1 ok2 i size|ok1 ok2 i str|i|i|i j]; cbn [step op_ok] in *.
  - unfold renew. destruct (free_chain_ok false i m l ch H) as (m1 & ch1 & -> & H1 & _ & _ & E3). destruct (E3 eq_refl) as [_ E5].
    eexists. split; [reflexivity|]. exists ch1. cbn [fst snd]. apply set_empty_ok; auto.
  - destruct (alloc_ok ok1 ok2 i size m l ch H Ho) as (r & m' & -> & _ & Hr). destruct r as [[k off]|].
    + destruct Hr as (_ & ch' & H'). eexists. split; [reflexivity|]. exists ch'. exact H'.
    + destruct Hr as [ch' H']. eexists. split; [reflexivity|]. exists ch'. exact H'.
  - destruct (store_ok ok1 ok2 i str m l ch H Ho) as (r & m' & -> & Hr). destruct r as [[k off]|]; destruct Hr as [ch' H']; (eexists; split; [reflexivity|]; exists ch'; exact H').
  - destruct (free_chain_ok true i m l ch H) as (m1 & ch1 & -> & H1 & _). eexists. split; [reflexivity|]. exists ch1. exact H1.
  - destruct (free_chain_ok false i m l ch H) as (m1 & ch1 & -> & H1 & _). eexists. split; [reflexivity|]. exists ch1. exact H1.
  - destruct (move_ok i j m l ch H) as (m' & ch' & -> & H'). eexists. split; [reflexivity|]. exists ch'. exact H'.
Qed.

Lemma run_ok ops : forall s, inv s -> Forall op_ok ops -> exists s', run s ops = Some s' /\ inv s'.
Proof.
  induction ops as [|o ops IH]; intros s Hs Ho; [exists s; split; [reflexivity|exact Hs]|].
  destruct (step_ok s o Hs (Forall_inv Ho)) as (s1 & E & H1). cbn [run]. rewrite E. apply IH; [exact H1|exact (Forall_inv_tail Ho)].
Qed.

Lemma init_ok : inv init.
Proof.
  exists (fun _ => []). constructor; cbn.
  - reflexivity.
  - intros _. constructor.
  - intros _ _ _ _ [].
  - intros k K. contradiction.
  - intros k K. contradiction.
  - intros _. split; [vm_compute; discriminate|reflexivity].
  - intros p [].
  - constructor.
Qed.

(** Allocators that are never named stay as they are. *)
Definition slots (n : nat) (o : op) : Prop :=
  match o with New i _ | Alloc _ _ i _ | Store _ _ i _ | Reset i | Clear i => i < n | Move i j => i < n /\ j < n end.

Lemma free_loop_al fuel : forall keep p s s', free_loop fuel keep p s = Some s' -> al s' = al s.
Proof.
  induction fuel as [|f IH]; intros keep p s s'; cbn [free_loop]; [destruct p; [discriminate|intro E; injection E as <-; reflexivity]|].
  destruct p as [k|]; [|intro E; injection E as <-; reflexivity]. unfold get_link, set_link, free. destruct (hp s k) as [[sz l]|]; [|discriminate].
  destruct keep; intro E; apply IH in E; exact E.
Qed.
Lemma free_chain_al keep i s s' j : free_chain keep i s = Some s' -> j <> i -> al s' j = al s j.
Proof. unfold free_chain. cbv zeta. intros E Hj. apply free_loop_al in E. rewrite E. cbn [set_al al]. apply upd_other. exact Hj. Qed.
Lemma new_page_al ok i s b s' j : new_page ok i s = Some (b, s') -> j <> i -> al s' j = al s j.
Proof.
  unfold new_page, malloc, set_link. intros E Hj. destruct (a_max (al s i) <? word)%N; [injection E as _ <-; reflexivity|].
  destruct ok; [|injection E as _ <-; reflexivity]. cbn [hp] in E. rewrite upd_same in E. injection E as _ <-. cbn [set_al al]. apply upd_other. exact Hj.
Qed.
Lemma set_link_al k l s s' : set_link k l s = Some s' -> al s' = al s.
Proof. unfold set_link. destruct (hp s k) as [[sz x]|]; [|discriminate]. intro E. injection E as <-. reflexivity. Qed.
Lemma alloc_al ok1 ok2 i size s r s' j : alloc ok1 ok2 i size s = Some (r, s') -> j <> i -> al s' j = al s j.
Proof.
  unfold alloc. intros E Hj. destruct (size =? 0)%N; [injection E as _ <-; reflexivity|]. destruct (oversized (al s i) size).
  - destruct (match a_ptr (al s i) with Some _ => Some (true, s) | None => new_page ok1 i s end) as [[b s1]|] eqn:E1; [|discriminate].
    assert (H1 : al s1 j = al s j) by (destruct (a_ptr (al s i)); [injection E1 as _ <-; reflexivity|eapply new_page_al; eassumption]).
    destruct b; [|injection E as _ <-; exact H1]. unfold malloc in E. destruct ok2; [|injection E as _ <-; exact H1].
    cbn [al] in E. destruct (a_ptr (al s1 i)) as [p|]; [|discriminate]. destruct (get_link p _) as [l|]; [|discriminate].
    destruct (set_link (fresh s1) l _) as [s2|] eqn:E2; [|discriminate]. apply set_link_al in E2. destruct (set_link p _ s2) as [s3|] eqn:E3; [|discriminate]. apply set_link_al in E3.
    injection E as _ <-. rewrite E3, E2. exact H1.
  - destruct (if fits (al s i) size then Some (true, s) else new_page ok1 i s) as [[b s1]|] eqn:E1; [|discriminate].
    assert (H1 : al s1 j = al s j) by (destruct (fits (al s i) size); [injection E1 as _ <-; reflexivity|eapply new_page_al; eassumption]).
    destruct b; [|injection E as _ <-; exact H1]. cbv zeta in E. destruct (a_ptr (al s1 i)); [|discriminate]. injection E as _ <-. cbn [set_al al]. rewrite upd_other by exact Hj. exact H1.
Qed.
Lemma step_al n s o s' j : slots n o -> step s o = Some s' -> n <= j -> al (fst s') j = al (fst s) j.
Proof.
  destruct s as [m l]. intros Hs E Hj. destruct o as [i size|ok1 ok2 i size|ok1 ok2 i str|i|i|i k]; cbn [step slots fst] in *.
  - unfold renew in E. destruct (free_chain false i m) as [m1|] eqn:E1; [|discriminate]. injection E as <-. cbn [fst set_al al]. rewrite upd_other by lia. apply (free_chain_al _ _ _ _ j E1). lia.
  - destruct (alloc ok1 ok2 i size m) as [[r m1]|] eqn:E1; [|discriminate]. apply (alloc_al _ _ _ _ _ _ _ j) in E1; [|lia]. destruct r as [[k off]|]; injection E as <-; exact E1.
  - unfold store in E. destruct (alloc ok1 ok2 i _ m) as [[r m1]|] eqn:E1; [|discriminate]. apply (alloc_al _ _ _ _ _ _ _ j) in E1; [|lia]. destruct r as [[k off]|]; injection E as <-; exact E1.
  - destruct (free_chain true i m) as [m1|] eqn:E1; [|discriminate]. injection E as <-. apply (free_chain_al _ _ _ _ j E1). lia.
  - destruct (free_chain false i m) as [m1|] eqn:E1; [|discriminate]. injection E as <-. apply (free_chain_al _ _ _ _ j E1). lia.
  - unfold move in E. destruct (free_chain false i m) as [m1|] eqn:E1; [|discriminate]. injection E as <-. cbn [fst set_al al]. rewrite !upd_other by lia. apply (free_chain_al _ _ _ _ j E1). lia.
Qed.
Lemma run_al n ops : forall s s' j, Forall (slots n) ops -> run s ops = Some s' -> n <= j -> al (fst s') j = al (fst s) j.
Proof.
  induction ops as [|o ops IH]; intros s s' j Ho E Hj; cbn [run] in E; [injection E as <-; reflexivity|].
  destruct (step s o) as [s1|] eqn:E1; [|discriminate]. rewrite (IH s1 s' j (Forall_inv_tail Ho) E Hj). eapply step_al; [exact (Forall_inv Ho)|exact E1|exact Hj].
Qed.
Lemma run_app ops1 : forall s ops2, run s (ops1 ++ ops2) = match run s ops1 with None => None | Some s' => run s' ops2 end.
Proof. induction ops1 as [|o ops1 IH]; intros s ops2; [reflexivity|]. cbn [app run]. destruct (step s o); [apply IH|reflexivity]. Qed.
