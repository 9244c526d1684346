From Verif Require Import Base UtfModel UtfSpec UtfProofs TokModel TokSpec.

(** ** Texts as sequences of characters with their units *)
Section Chunks.
Variable dl : list N -> N * list N.

Inductive chunks : list N -> list (N * list N) -> Prop :=
| ch_stop t : fst (dl t) = 0%N -> chunks t []
| ch_cons u r v cs : dl (u ++ r) = (v, r) -> v <> 0%N -> chunks r cs -> chunks (u ++ r) ((v, u) :: cs).

Lemma chunks_exist : decoder dl -> forall n t, length t <= n -> exists cs, chunks t cs.
Proof.
  intros Hd. induction n as [|n IH]; intros t Ht.
  - destruct t as [|x t]; [|cbn in Ht; lia]. exists []. constructor. destruct Hd as [-> _]. reflexivity.
  - destruct (dl t) as [v r] eqn:E. destruct (N.eq_dec v 0) as [->|Hv].
    { exists []. constructor. rewrite E. reflexivity. }
    destruct (dl_facts _ Hd _ _ _ E Hv) as (u & -> & Hl).
    destruct (IH r) as [cs Hcs]; [lia|]. exists ((v, u) :: cs). constructor; auto.
Qed.
End Chunks.

Lemma chunks_enc dl enc vs : dl [] = (0%N, []) ->
  (forall v r, In v vs -> dl (enc v ++ r) = (v, r) /\ v <> 0%N) ->
  chunks dl (flat_map enc vs) (map (fun v => (v, enc v)) vs).
Proof.
  intros H0. induction vs as [|v vs IH]; intros H; cbn [flat_map map].
  - constructor. rewrite H0. reflexivity.
  - destruct (H v (flat_map enc vs)) as [H1 H2]; [left; auto|]. constructor; auto. apply IH.
    intros w r Hw. apply H. right; auto.
Qed.

Definition mem_units (cs : list (N * list N)) : nat := list_sum (map (fun x => length (snd x)) cs).

(** The characters with lengths and marks, as in TokSpec. *)
Definition view (cs : list (N * list N)) (ms : list bool) : list (N * nat * bool) :=
  map (fun x => (fst (fst x), length (snd (fst x)), snd x)) (combine cs ms).

Lemma view_app a b m n : length a = length m -> view (a ++ b) (m ++ n) = view a m ++ view b n.
Proof using.
  unfold view. intro H. rewrite <- map_app. f_equal. revert m H.
  induction a as [|x a IH]; intros [|y m] H; cbn in *; auto; try lia. f_equal. apply IH. lia.
Qed.

Lemma view_all (P : N * nat * bool -> Prop) b cs : (forall v n, P (v, n, b)) -> Forall P (view cs (repeat b (length cs))).
Proof using. intros H. induction cs as [|c cs IH]; cbn; constructor; auto. Qed.

Lemma view_units cs ms : length cs = length ms -> units (view cs ms) = mem_units cs.
Proof using.
  unfold units, mem_units, view. revert ms. induction cs as [|c cs IH]; intros [|m ms] H; cbn in *; auto; try lia.
Qed.

Section Tok.
Variable mem : list N.
Variable e : option nat.
Variable dl : list N -> N * list N.
Variable okt : list N -> Prop.
Variable nextf : nat -> option (N * nat).
Hypothesis Hdl : decoder dl.
Hypothesis Hokt : forall u r, okt (u ++ r) -> okt r.
Hypothesis Hnext : forall p t v r, okt t -> text_at mem e p t -> dl t = (v, r) ->
  nextf p = Some (v, p + length t - length r).
Variable delims : list N.
Variable pairs : list (N * N).
Hypothesis Hdelims : Forall (fun d => d < 255)%N delims.
Hypothesis Hpairs : Forall (fun q => 0 < fst q < 128 /\ 0 < snd q < 128)%N pairs.

Definition isd (c : N) : bool := existsb (N.eqb c) delims.

Lemma str_chr_isd c : str_chr delims c = if isd c then Some c else None.
Proof.
  unfold str_chr, isd. destruct (existsb (N.eqb c) delims) eqn:E.
  - apply existsb_exists in E as (d & Hd & Heq). apply N.eqb_eq in Heq. subst d.
    assert (c < 255)%N by (rewrite Forall_forall in Hdelims; apply (Hdelims c); auto).
    replace (c <? 256)%N with true by lia.
    clear Hdelims. induction delims as [|x l IH]; [destruct Hd|]. cbn [find].
    destruct (N.eqb_spec c x) as [->|Hne]; auto. apply IH. destruct Hd; [congruence|auto].
  - destruct (c <? 256)%N; auto. destruct (find (N.eqb c) delims) as [d|] eqn:Ef; auto.
    apply find_some in Ef as [Hd He]. assert (existsb (N.eqb c) delims = true) by (apply existsb_exists; eauto).
    congruence.
Qed.

Lemma right_quote c : get_right_quote pairs (Z.of_N c) =
  match closing pairs c with Some x => Z.of_N x | None => 0%Z end.
Proof.
  induction pairs as [|[l r] ps IH]; [reflexivity|]. cbn [get_right_quote closing].
  pose proof (Forall_inv Hpairs) as [Hl Hr]. cbn [fst snd] in Hl, Hr.
  unfold schar. replace (l <? 128)%N with true by lia. replace (r <? 128)%N with true by lia.
  destruct (N.eqb_spec l c) as [->|Hne]; [rewrite Z.eqb_refl; auto|].
  replace (Z.of_N l =? Z.of_N c)%Z with false by lia. apply IH. exact (Forall_inv_tail Hpairs).
Qed.

Lemma closing_pos c x : closing pairs c = Some x -> (0 < x)%N.
Proof.
  induction pairs as [|[l r] ps IH]; cbn [closing]; [discriminate|].
  pose proof (Forall_inv Hpairs) as [Hl Hr]. cbn [fst snd] in Hl, Hr.
  destruct (N.eqb l c); [intro H; injection H as <-; lia|]. apply IH. exact (Forall_inv_tail Hpairs).
Qed.

Definition mark q (cs : list (N * list N)) := unquoted_delims isd (closing pairs) q (map fst cs).
Lemma mark_length q cs : length (mark q cs) = length cs.
Proof using.
  unfold mark. revert q. induction cs as [|c cs IH]; intros q; cbn [map unquoted_delims length]; auto.
  destruct q as [x|]; [|destruct (isd (fst c))]; cbn [length]; f_equal; apply IH.
Qed.

Lemma nextf_cons u r v p : okt (u ++ r) -> text_at mem e p (u ++ r) -> dl (u ++ r) = (v, r) ->
  nextf p = Some (v, p + length u).
Proof. intros Ho Ht Hd. rewrite (Hnext p _ _ _ Ho Ht Hd), app_length. f_equal. f_equal. lia. Qed.

Lemma nextf_stop t p : okt t -> text_at mem e p t -> fst (dl t) = 0%N -> exists p', nextf p = Some (0%N, p').
Proof. intros Ho Ht H. destruct (dl t) as [v r] eqn:E. cbn in H. subst v. eauto. Qed.

Lemma dl_nonempty u r v : dl (u ++ r) = (v, r) -> v <> 0%N -> u <> [].
Proof.
  intros H Hv. destruct (dl_facts _ Hdl _ _ _ H Hv) as (u' & Hu & Hl). intros ->. cbn in Hl. lia.
Qed.

Lemma skip_ok fuel : forall cs t p d, okt t -> text_at mem e p t -> chunks dl t cs -> length t < fuel ->
  exists ds rest t', cs = ds ++ rest /\ Forall (fun c => isd (fst c) = true) ds /\
    match rest with [] => True | c :: _ => isd (fst c) = false end /\
    skip_delims nextf delims fuel p d =
      Some (p + mem_units ds, match rev ds with [] => d | c :: _ => fst c end) /\
    chunks dl t' rest /\ text_at mem e (p + mem_units ds) t' /\ okt t' /\ length t' + mem_units ds = length t.
Proof.
  induction fuel as [|fuel IH]; intros cs t p d Ho Ht Hc Hf; [lia|].
  inversion Hc as [t0 Hz|u r v cs' Hd Hv Hc']; subst.
  - destruct (nextf_stop _ _ Ho Ht Hz) as [p' Hp']. exists [], [], t.
    cbn [skip_delims]. rewrite Hp'. cbn. rewrite Nat.add_0_r. split; [auto|]. split; [auto|]. split; [auto|]. auto.
  - cbn [skip_delims]. rewrite (nextf_cons _ _ _ _ Ho Ht Hd). replace (v =? 0)%N with false by lia.
    rewrite str_chr_isd. destruct (isd v) eqn:Ei.
    + pose proof (text_at_suffix _ _ _ _ _ Ht) as Ht'.
      assert (Hne : u <> []) by (eapply dl_nonempty; eauto).
      assert (length r < fuel). { rewrite app_length in Hf. destruct u; [contradiction|cbn in Hf; lia]. }
      destruct (IH cs' r (p + length u) v) as (ds & rest & t' & -> & Hds & Hr & Hs & Hc2 & Ht2 & Ho2 & Hl); auto.
      { eapply Hokt; eauto. }
      exists ((v, u) :: ds), rest, t'. split; [auto|]. split; [constructor; auto|]. split; [auto|].
      cbn [mem_units map list_sum fold_right] in *. unfold mem_units in *. cbn [map list_sum fold_right snd].
      rewrite Hs, Nat.add_assoc. split; [|split; [auto|]].
      * f_equal. f_equal. cbn [rev]. destruct (rev ds) as [|x l]; auto.
      * split; [auto|]. split; [auto|]. rewrite app_length. cbn [length]. unfold list_sum in Hl. lia.
    + exists [], ((v, u) :: cs'), (u ++ r). cbn [app rev mem_units map list_sum fold_right fst].
      unfold mem_units; cbn. rewrite Nat.add_0_r. split; [auto|]. split; [auto|]. split; [auto|].
      split; [auto|]. split; [auto|]. split; [auto|]. split; [auto|]. rewrite Nat.add_0_r. auto.
Qed.

Definition zq (q : option N) : Z := match q with Some x => Z.of_N x | None => 0%Z end.

Lemma take_ok fuel : forall cs t p q, okt t -> text_at mem e p t -> chunks dl t cs -> length t < fuel ->
  match q with Some x => (0 < x)%N | None => True end ->
  exists w rest t', cs = w ++ rest /\ mark q cs = repeat false (length w) ++ mark None rest /\
    match rest with [] => True | c :: _ => isd (fst c) = true end /\
    take_token nextf delims pairs fuel p (zq q) = Some (p + mem_units w) /\
    chunks dl t' rest /\ text_at mem e (p + mem_units w) t' /\ okt t' /\ length t' + mem_units w = length t /\
    (w = [] -> match cs with c :: _ => q = None /\ isd (fst c) = true | [] => True end).
Proof.
  induction fuel as [|fuel IH]; intros cs t p q Ho Ht Hc Hf Hq; [lia|].
  inversion Hc as [t0 Hz|u r v cs' Hd Hv Hc']; subst.
  - destruct (nextf_stop _ _ Ho Ht Hz) as [p' Hp']. exists [], [], t.
    cbn [take_token]. rewrite Hp'. cbn. rewrite !Nat.add_0_r. split; [auto|]. split; [auto|]. split; [auto|].
    split; [auto|]. split; [auto|]. split; [auto|]. split; auto.
  - cbn [take_token]. rewrite (nextf_cons _ _ _ _ Ho Ht Hd). replace (v =? 0)%N with false by lia.
    assert (Hne : u <> []) by (eapply dl_nonempty; eauto).
    pose proof (text_at_suffix _ _ _ _ _ Ht) as Ht'.
    assert (Hlr : length r < fuel). { rewrite app_length in Hf. destruct u; [contradiction|cbn in Hf; lia]. }
    assert (Hor : okt r) by (eapply Hokt; eauto).
    assert (Hgo : forall q', match q' with Some x => (0 < x)%N | None => True end ->
      mark q ((v, u) :: cs') = false :: mark q' cs' ->
      exists w rest t', (v, u) :: cs' = w ++ rest /\
        mark q ((v, u) :: cs') = repeat false (length w) ++ mark None rest /\
        match rest with [] => True | c :: _ => isd (fst c) = true end /\
        take_token nextf delims pairs fuel (p + length u) (zq q') = Some (p + mem_units w) /\
        chunks dl t' rest /\ text_at mem e (p + mem_units w) t' /\ okt t' /\
        length t' + mem_units w = length (u ++ r) /\ w <> []).
    { intros q' Hq' Hm.
      destruct (IH cs' r (p + length u) q') as (w & rest & t' & -> & Hmk & Hr & Hs & Hc2 & Ht2 & Ho2 & Hl & _); auto.
      exists ((v, u) :: w), rest, t'. split; [auto|]. rewrite Hm, Hmk. split; [reflexivity|]. split; [auto|].
      unfold mem_units in *. cbn [map list_sum fold_right snd]. unfold list_sum in *. rewrite Nat.add_assoc.
      split; [auto|]. split; [auto|]. split; [auto|]. split; [auto|]. rewrite app_length. split; [lia|discriminate]. }
    assert (Hfin : forall X, (exists w rest t', (v, u) :: cs' = w ++ rest /\
        mark q ((v, u) :: cs') = repeat false (length w) ++ mark None rest /\
        match rest with [] => True | c :: _ => isd (fst c) = true end /\
        X = Some (p + mem_units w) /\
        chunks dl t' rest /\ text_at mem e (p + mem_units w) t' /\ okt t' /\
        length t' + mem_units w = length (u ++ r) /\ w <> []) ->
       exists w rest t', (v, u) :: cs' = w ++ rest /\
        mark q ((v, u) :: cs') = repeat false (length w) ++ mark None rest /\
        match rest with [] => True | c :: _ => isd (fst c) = true end /\
        X = Some (p + mem_units w) /\
        chunks dl t' rest /\ text_at mem e (p + mem_units w) t' /\ okt t' /\
        length t' + mem_units w = length (u ++ r) /\ (w = [] -> q = None /\ isd (fst (v, u)) = true)).
    { intros X (w & rest & t' & H1 & H2 & H3 & H4 & H5 & H6 & H7 & H8 & H9).
      exists w, rest, t'. split; [auto|]. split; [auto|]. split; [auto|]. split; [auto|]. split; [auto|].
      split; [auto|]. split; [auto|]. split; [auto|]. intros ->; contradiction. }
    destruct q as [x|].
    + change (zq (Some x)) with (Z.of_N x). replace (negb (Z.of_N x =? 0)%Z) with true by lia.
      apply Hfin.
      replace (if (Z.of_N x =? Z.of_N v)%Z then 0%Z else Z.of_N x) with (zq (if N.eqb v x then None else Some x)).
      2:{ destruct (N.eqb_spec v x) as [->|Hx]; cbn [zq]; [rewrite Z.eqb_refl; auto|].
          replace (Z.of_N x =? Z.of_N v)%Z with false by lia. auto. }
      apply Hgo; [destruct (N.eqb v x); auto|]. reflexivity.
    + cbn [zq]. change (negb (0 =? 0)%Z) with false. cbv iota. rewrite str_chr_isd. destruct (isd v) eqn:Ei.
      * exists [], ((v, u) :: cs'), (u ++ r). unfold mem_units; cbn [app map list_sum fold_right length repeat].
        rewrite !Nat.add_0_r. split; [auto|]. split; [auto|]. split; [auto|]. split; [auto|]. split; [auto|].
        split; [auto|]. split; [auto|]. split; [auto|]. auto.
      * rewrite right_quote. apply Hfin.
        change (match closing pairs v with Some x => Z.of_N x | None => 0%Z end) with (zq (closing pairs v)).
        apply Hgo.
        { destruct (closing pairs v) eqn:Ec; auto. eapply closing_pos; eauto. }
        unfold mark. cbn [map unquoted_delims fst]. rewrite Ei. reflexivity.
Qed.

Lemma mark_delims ds rest : Forall (fun c => isd (fst c) = true) ds ->
  mark None (ds ++ rest) = repeat true (length ds) ++ mark None rest.
Proof using.
  unfold mark. induction ds as [|c ds IH]; intros H; [reflexivity|]. cbn [app map unquoted_delims length repeat].
  rewrite (Forall_inv H). f_equal. apply IH. exact (Forall_inv_tail H).
Qed.

Lemma all_tokens_ok n : forall fuel cs t p, okt t -> text_at mem e p t -> chunks dl t cs -> length t < fuel ->
  length t < n -> exists res, all_tokens nextf delims pairs n fuel p = Some res /\ fields p (view cs (mark None cs)) res.
Proof.
  induction n as [|n IH]; intros fuel cs t p Ho Ht Hc Hf Hn; [lia|].
  destruct (skip_ok fuel cs t p 0%N Ho Ht Hc Hf) as (ds & rest & t1 & -> & Hds & Hr & Hs & Hc1 & Ht1 & Ho1 & Hl1).
  destruct (take_ok fuel rest t1 _ None Ho1 Ht1 Hc1 ltac:(lia) I) as
    (w & rest2 & t2 & -> & Hmk & Hr2 & Htk & Hc2 & Ht2 & Ho2 & Hl2 & Hw).
  cbn [all_tokens]. unfold next_impl. rewrite Hs. cbn [zq] in Htk. rewrite Htk.
  rewrite mark_delims by auto. rewrite view_app by (rewrite repeat_length; auto). rewrite Hmk.
  rewrite view_app by (rewrite repeat_length; auto).
  destruct w as [|c w].
  - assert (rest2 = []) as ->.
    { cbn [app] in *. destruct rest2 as [|c rest2]; auto. destruct Hw as [_ Hw]; auto. congruence. }
    unfold mem_units at 2. cbn [map list_sum fold_right]. rewrite Nat.add_0_r, Nat.eqb_refl. cbn [N.eqb].
    exists []. split; [reflexivity|]. cbn. rewrite app_nil_r. constructor. apply view_all. reflexivity.
  - assert (Hpos : mem_units (c :: w) > 0).
    { inversion Hc1 as [|u r v cs' Hd Hv Hc']; subst.
      assert (u <> []) by (eapply dl_nonempty; eauto).
      unfold mem_units. cbn [map list_sum fold_right snd]. destruct u; [contradiction|]. cbn. lia. }
    replace (Nat.eqb (p + mem_units ds) (p + mem_units ds + mem_units (c :: w))) with false
      by (symmetry; apply Nat.eqb_neq; lia).
    assert (Hd255 : (match rev ds with [] => 0%N | c :: _ => fst c end =? 255)%N = false).
    { destruct (rev ds) as [|x l] eqn:Er; auto.
      assert (Hin : In x ds) by (apply in_rev; rewrite Er; left; auto).
      rewrite Forall_forall in Hds. apply Hds in Hin. unfold isd in Hin. apply existsb_exists in Hin as (d & Hd & He).
      apply N.eqb_eq in He. rewrite Forall_forall in Hdelims. apply Hdelims in Hd. lia. }
    rewrite Hd255.
    destruct (IH fuel rest2 t2 (p + mem_units ds + mem_units (c :: w)) Ho2 Ht2 Hc2 ltac:(lia) ltac:(lia)) as (res & Hres & Hfi).
    rewrite Hres. eexists; split; [reflexivity|].
    assert (Hu1 : units (view ds (repeat true (length ds))) = mem_units ds) by (apply view_units; rewrite repeat_length; auto).
    assert (Hu2 : units (view (c :: w) (repeat false (length (c :: w)))) = mem_units (c :: w))
      by (apply view_units; rewrite repeat_length; auto).
    replace (p + mem_units ds + mem_units (c :: w) - (p + mem_units ds)) with (mem_units (c :: w)) by lia.
    rewrite <- Hu1, <- Hu2.
    replace (match rev ds with [] => 0%N | c0 :: _ => fst c0 end)
      with (match rev (view ds (repeat true (length ds))) with [] => 0%N | x :: _ => fst (fst x) end).
    + apply F_token.
      * apply view_all. reflexivity.
      * discriminate.
      * apply view_all. reflexivity.
      * destruct rest2 as [|c2 rest2]; [exact I|]. unfold mark. cbn [map unquoted_delims]. rewrite Hr2. reflexivity.
      * rewrite Hu1, Hu2. exact Hfi.
    + clear. assert (view ds (repeat true (length ds)) = map (fun c => (fst c, length (snd c), true)) ds) as ->.
      { unfold view. induction ds as [|d ds IH]; [reflexivity|]. cbn in *. f_equal. exact IH. }
      rewrite <- map_rev. destruct (rev ds); reflexivity.
Qed.

Lemma peek_delims_ok fuel cs t p : okt t -> text_at mem e p t -> chunks dl t cs -> length t < fuel ->
  exists ds rest, cs = ds ++ rest /\ Forall (fun c => isd (fst c) = true) ds /\
    match rest with [] => True | c :: _ => isd (fst c) = false end /\
    peek_delims nextf delims fuel p = Some (mem_units ds).
Proof.
  intros Ho Ht Hc Hf.
  destruct (skip_ok fuel cs t p 0%N Ho Ht Hc Hf) as (ds & rest & t1 & -> & Hds & Hr & Hs & _).
  exists ds, rest. split; [auto|]. split; [auto|]. split; [auto|]. unfold peek_delims. rewrite Hs. f_equal. lia.
Qed.
End Tok.
