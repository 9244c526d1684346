(** Proofs: what update_line finds to be different. *)
From Verif Require Import Base DispModel DispSpec DispTerm.
Open Scope nat_scope.

Lemma ceqb_eq a b : ceqb a b = true <-> a = b.
Proof. destruct a as [a f], b as [b g]. unfold ceqb. cbn [fst snd]. rewrite andb_true_iff, !N.eqb_eq. split; [intros [-> ->]; reflexivity|intro E; injection E as -> ->; auto]. Qed.
Lemma teqb_eq a : forall b, teqb a b = true <-> a = b.
Proof.
  induction a as [|x a IH]; intros [|y b]; cbn [teqb]; split; intro H; try discriminate; try reflexivity.
  - apply andb_true_iff in H as [H1 H2]. apply ceqb_eq in H1. apply IH in H2. congruence.
  - injection H as -> ->. apply andb_true_iff. split; [apply ceqb_eq; reflexivity|apply IH; reflexivity].
Qed.

Lemma lscan_spec go : forall gd hf cols n wc wn c' n', lscan go gd hf cols n wc wn = (c', n') ->
  (c' = wc /\ n' = wn) \/ exists k, map fst (firstn k go) = map fst (firstn k gd) /\ c' = cols + width (firstn k gd) /\ n' = n + length (concat (map fst (firstn k gd))).
Proof.
  induction go as [|g1 go IH]; intros gd hf cols n wc wn c' n' H; [cbn [lscan] in H; injection H as <- <-; left; auto|].
  destruct gd as [|d1 gd]; [cbn [lscan] in H; injection H as <- <-; left; auto|]. cbn [lscan] in H.
  destruct (teqb (fst g1) (fst d1)) eqn:E; [|injection H as <- <-; left; auto]. apply teqb_eq in E.
  assert (Hk : forall hf' wc' wn', lscan go gd hf' (cols + wid d1) (n + length (fst d1)) wc' wn' = (c', n') -> (c' = wc' /\ n' = wn') \/ exists k, map fst (firstn k (g1 :: go)) = map fst (firstn k (d1 :: gd)) /\ c' = cols + width (firstn k (d1 :: gd)) /\ n' = n + length (concat (map fst (firstn k (d1 :: gd))))).
  { intros hf' wc' wn' H'. destruct (IH _ _ _ _ _ _ _ _ H') as [A|(k & Em & Ec & En)]; [left; exact A|]. right. exists (S k). cbn [firstn map width concat]. rewrite app_length, E, Em. split; [reflexivity|]. split; lia. }
  assert (Hw : forall hf', lscan go gd hf' (cols + wid d1) (n + length (fst d1)) (cols + wid d1) (n + length (fst d1)) = (c', n') -> exists k, map fst (firstn k (g1 :: go)) = map fst (firstn k (d1 :: gd)) /\ c' = cols + width (firstn k (d1 :: gd)) /\ n' = n + length (concat (map fst (firstn k (d1 :: gd))))).
  { intros hf' H'. destruct (Hk _ _ _ H') as [[-> ->]|A]; [|exact A]. exists 1. cbn [firstn map width concat]. rewrite E, app_nil_r. split; [reflexivity|]. split; lia. }
  cbv zeta in H. destruct (negb (hist (last_face (fst d1)))); [right; exact (Hw _ H)|]. destruct (N.eqb (last_face (fst d1)) hf); [exact (Hk _ _ _ H)|].
  destruct (negb _ && negb _)%bool; [right; exact (Hw _ H)|exact (Hk _ _ _ H)].
Qed.

Lemma rscan_spec ro : forall rd n best, rscan ro rd n best = best \/ exists j, rscan ro rd n best = n + S j /\ firstn (S j) ro = firstn (S j) rd /\ S j <= length ro /\ S j <= length rd /\ (exists c f, nth_error ro j = Some (c, f) /\ (c < 128)%N).
Proof.
  induction ro as [|a ro IH]; intros [|b rd] n best; cbn [rscan]; auto. destruct (ceqb a b) eqn:E; [|auto]. apply ceqb_eq in E. subst b.
  destruct (IH rd (S n) (if ulen (fst a) =? 1 then S n else best)) as [A|(j & A & B & C & D & c & f & F & G)].
  - rewrite A. destruct (ulen (fst a) =? 1) eqn:U; [|auto]. right. exists 0. split; [lia|]. split; [reflexivity|]. cbn [length]. split; [lia|]. split; [lia|]. destruct a as [c f]. exists c, f. split; [reflexivity|]. cbn [fst] in U. unfold ulen in U. destruct (c <? 128)%N eqn:E; [lia|]. destruct (c <? 2048)%N; [discriminate U|]. destruct (c <? 65536)%N; discriminate U.
  - right. exists (S j). rewrite A. split; [lia|]. split; [cbn [firstn]; f_equal; exact B|]. cbn [length]. split; [lia|]. split; [lia|]. exists c, f. split; [exact F|exact G].
Qed.
Lemma firstn_rev_len {A} (l : list A) k : k <= length l -> l = firstn (length l - k) l ++ rev (firstn k (rev l)).
Proof.
  intro H. rewrite firstn_rev, rev_involutive, firstn_skipn. reflexivity.
Qed.
Lemma common_right o' d' r : r = rscan (rev o') (rev d') 0 0 -> exists om dm rt, o' = om ++ rt /\ d' = dm ++ rt /\ length rt = r /\ match rt with [] => True | c :: _ => (fst c < 128)%N end.
Proof.
  intros ->. destruct (rscan_spec (rev o') (rev d') 0 0) as [A|(j & A & B & C & D & c & f & F & G)].
  - rewrite A. exists o', d', []. rewrite !app_nil_r. auto.
  - rewrite A. cbn [Nat.add]. rewrite rev_length in C, D. exists (firstn (length o' - S j) o'), (firstn (length d' - S j) d'), (rev (firstn (S j) (rev o'))).
    split; [apply firstn_rev_len; exact C|]. split; [rewrite B; apply firstn_rev_len; exact D|]. split; [rewrite rev_length, firstn_length, rev_length; lia|].
    assert (Es : firstn (S j) (rev o') = firstn j (rev o') ++ [(c, f)]).
    { clear - F. revert F. generalize (rev o'). intro l. revert j. induction l as [|x l IH]; intros [|j] F; cbn [nth_error] in F; try discriminate F; [injection F as ->; reflexivity|]. cbn [firstn app]. f_equal. apply IH. exact F. }
    rewrite Es, rev_app_distr. cbn [rev app]. exact G.
Qed.

Lemma run_of_clusters f gs : Forall (fun g : cluster => fst g <> []) gs -> Forall (fun g : cluster => Forall (fun c => snd c = last_face (fst g)) (fst g)) gs ->
  exists j, run_of f (concat (map fst gs)) = length (concat (map fst (firstn j gs))).
Proof.
  induction gs as [|[t w] gs IH]; intros Hn Hf; [exists 0; reflexivity|]. inversion Hn as [|? ? Nt Hn']; subst. inversion Hf as [|? ? Ft Hf']; subst. cbn [fst] in Nt, Ft.
  cbn [map concat fst]. destruct (N.eqb (last_face t) f) eqn:E.
  - destruct (IH Hn' Hf') as (j & Ej). exists (S j). cbn [firstn map concat fst]. rewrite app_length, <- Ej. apply N.eqb_eq in E. rewrite E in Ft. clear - Ft. induction Ft as [|c t Hc Ft IH]; [reflexivity|]. cbn [app run_of length]. rewrite Hc, N.eqb_refl, IH. reflexivity.
  - exists 0. cbn [firstn map concat length]. destruct t as [|c t]; [congruence|]. inversion Ft as [|? ? Hc _]. cbn [app run_of]. rewrite Hc, E. reflexivity.
Qed.

Lemma tidy_adjacent a b u v : forall p, tidy_from p (u ++ a :: b :: v) -> is_blank a = true -> is_blank b = true -> False.
Proof. induction u as [|c u IH]; intros p H Ha Hb; cbn [app tidy_from] in H; destruct H as [H1 H2]; [cbn [tidy_from] in H2; destruct H2 as [H2 _]; specialize (H2 Hb); congruence|exact (IH _ H2 Ha Hb)]. Qed.
Lemma blen_one t : blen t <= 1 -> t = [] \/ exists c, t = [c].
Proof. assert (U : forall c, 1 <= ulen c) by (intro c; unfold ulen; destruct (c <? 128)%N; [lia|]; destruct (c <? 2048)%N; [lia|]; destruct (c <? 65536)%N; lia). destruct t as [|c [|c' t]]; intro H; [auto|right; eauto|]. cbn [blen] in H. pose proof (U (fst c)). pose proof (U (fst c')). lia. Qed.
Lemma blank_scan_tidy before k u rt : tidy (u ++ rt) -> blank_scan before k (blen rt) (firstn 1 rt ++ rev u) = true -> rt = [] \/ exists c, rt = [c] /\ is_blank c = true.
Proof.
  intros Ht H. destruct rt as [|c rt]; [auto|]. right. exists c. cbn [firstn app] in H. destruct (blen (c :: rt)) as [|[|n]] eqn:E.
  - cbn [blen] in E. destruct c as [c f]. cbn [fst] in E. unfold ulen in E. destruct (c <? 128)%N; [lia|]. destruct (c <? 2048)%N; [lia|]. destruct (c <? 65536)%N; lia.
  - destruct (blen_one (c :: rt) ltac:(lia)) as [|(x & Ex)]; [discriminate|]. injection Ex as <- ->. split; [reflexivity|]. cbn [blank_scan] in H. apply andb_true_iff in H as [H _]. exact H.
  - exfalso. cbn [blank_scan] in H. apply andb_true_iff in H as [Hc H]. destruct u as [|x u] using rev_ind.
    + cbn [app] in Ht. destruct Ht as [Ht _]. specialize (Ht Hc). discriminate Ht.
    + rewrite rev_app_distr in H. cbn [rev app] in H. apply andb_true_iff in H as [Hx _]. rewrite <- app_assoc in Ht. cbn [app] in Ht. exact (tidy_adjacent _ _ _ _ _ Ht Hx Hc).
Qed.

Section Diff.
Variable gl : text -> list cluster.
Variable ok : N -> Prop.
Variable solid : N -> bool.
Hypothesis It : iterates gl ok solid.
Local Notation okt := (okt ok).
Local Notation cells := (cells gl).

(** the parts of the two lines *)
Lemma diff_parts before eol rp o d : okt (l_text o) -> okt (l_text d) -> one_face gl (l_text d) ->
  exists lt om dm rt, l_text o = lt ++ om ++ rt /\ l_text d = lt ++ dm ++ rt /\
    okt lt /\ okt om /\ okt dm /\ okt rt /\
    cells (l_text o) = cells lt ++ cells om ++ cells rt /\ cells (l_text d) = cells lt ++ cells dm ++ cells rt /\
    (rp = true -> rt = []) /\
    let pl := diff_plan gl before eol rp o d in
    u_lcol pl = l_x d + length (cells lt) /\ u_rcol pl = l_x d + length (cells lt) + length (cells dm) /\
    skipn (u_lind pl) (firstn (u_rind pl) (l_text d)) = dm /\
    u_delta pl = (if match rt with [] => true | _ => false end then 0%Z else Z.of_nat (length (cells dm)) - Z.of_nat (length (cells om)))%Z /\
    (u_eol pl = true -> eol = true) /\
    (u_eol pl = true -> rp = false -> tidy (l_text d) -> rt = [] \/ exists c, rt = [c] /\ is_blank c = true).
Proof.
  intros Ho Hd Hf. unfold diff_plan.
  destruct (lscan (gl (l_text o)) (gl (l_text d)) 0 (l_x d) 0 (l_x d) 0) as [lcol n] eqn:EL.
  assert (A : exists k, map fst (firstn k (gl (l_text o))) = map fst (firstn k (gl (l_text d))) /\ lcol = l_x d + width (firstn k (gl (l_text d))) /\ n = length (concat (map fst (firstn k (gl (l_text d)))))).
  { destruct (lscan_spec _ _ _ _ _ _ _ _ _ EL) as [[-> ->]|(k & A)]; [exists 0; cbn; split; [reflexivity|split; lia]|exists k; exact A]. }
  clear EL. destruct A as (k & Em & -> & ->).
  destruct (gl_split gl ok solid It (l_text o) k Ho) as (lo & o' & Eo & Go & Gor & Lo & Lor & Olo & Oo' & Co).
  destruct (gl_split gl ok solid It (l_text d) k Hd) as (lt & d' & Ed & Gd & Gdr & Ld & Ldr & Olt & Od' & Cd).
  assert (X : lo = lt) by (rewrite Lo, Ld, Em; reflexivity). rewrite X in Eo, Co. clear Lo Em Go X Olo lo. rewrite <- Ld.
  replace (skipn (length lt) (l_text o)) with o' by (rewrite Eo, skipn_app_l; reflexivity).
  replace (skipn (length lt) (l_text d)) with d' by (rewrite Ed, skipn_app_l; reflexivity).
  assert (Ef : firstn (length lt) (l_text d) = lt) by (rewrite Ed, firstn_app_l; reflexivity). rewrite Ef.
  assert (Wl : width (firstn k (gl (l_text d))) = length (cells lt)) by (rewrite <- Gd; symmetry; apply (cells_len gl ok solid It lt Olt)). rewrite Wl.
  (* the right part before the run of a history expansion is taken *)
  assert (B : exists om dm rt, o' = om ++ rt /\ d' = dm ++ rt /\ length rt = (if rp then 0 else rscan (rev o') (rev d') 0 0) /\ match rt with [] => True | c :: _ => (fst c < 128)%N end).
  { destruct rp; [exists o', d', []; rewrite !app_nil_r; auto|]. apply common_right. reflexivity. }
  destruct B as (om & dm & rt & Eo' & Ed' & Lr & Ac). set (r := if rp then 0 else rscan (rev o') (rev d') 0 0) in *. assert (Hr0 : rp = true -> r = 0) by (intros ->; reflexivity). clearbody r.
  assert (Ldm : length d' - r = length dm) by (rewrite Ed', app_length; lia). assert (Lom : length o' - r = length om) by (rewrite Eo', app_length; lia). rewrite Ldm, Lom.
  replace (firstn (length dm) d') with dm by (rewrite Ed', firstn_app_l; reflexivity).
  replace (skipn (length dm) d') with rt by (rewrite Ed', skipn_app_l; reflexivity).
  assert (Hom : okt om /\ okt rt) by (apply okt_app; rewrite <- Eo'; exact Oo'). assert (Hdm : okt dm) by (rewrite Ed' in Od'; apply okt_app in Od' as [X _]; exact X). destruct Hom as [Hom Hrt].
  assert (Srt : starts_solid solid rt) by (destruct rt as [|c rt']; [exact Logic.I|]; inversion Hrt; subst; apply (it_solid _ _ _ It); assumption).
  assert (Co' : cells o' = cells om ++ cells rt) by (rewrite Eo'; apply (cells_split gl ok solid It); assumption).
  assert (Cd' : cells d' = cells dm ++ cells rt) by (rewrite Ed'; apply (cells_split gl ok solid It); assumption).
  (* the run *)
  set (e := if rp then 0 else hist_run dm rt).
  assert (Grt : gl d' = gl dm ++ gl rt) by (rewrite Ed'; apply (it_app _ _ _ It); assumption).
  assert (Frt : Forall (fun g : cluster => Forall (fun c => snd c = last_face (fst g)) (fst g)) (gl rt)).
  { unfold one_face in Hf. rewrite <- (firstn_skipn k (gl (l_text d))), <- Gdr, Grt in Hf. apply Forall_app in Hf as [_ Hf]. apply Forall_app in Hf as [_ Hf]. exact Hf. }
  assert (Run : exists j, e = length (concat (map fst (firstn j (gl rt))))).
  { unfold e. destruct rp; [exists 0; reflexivity|]. unfold hist_run. destruct dm as [|c0 dm0]; [exists 0; reflexivity|]. destruct (hist (last_face (c0 :: dm0))); [|exists 0; reflexivity].
    destruct (run_of_clusters (last_face (c0 :: dm0)) (gl rt) (it_ne _ _ _ It rt Hrt) Frt) as (j & Hj). rewrite (it_concat _ _ _ It rt Hrt) in Hj. exists j. exact Hj. }
  destruct Run as (j & Ej). destruct (gl_split gl ok solid It rt j Hrt) as (ex & rt' & Er & Ge & Gr & Le & _ & Oex & Ort & Cr). rewrite <- Le in Ej.
  assert (Sex : starts_solid solid ex) by (destruct ex as [|c ex']; [exact Logic.I|]; rewrite Er in Srt; exact Srt).
  assert (Fo : firstn (length om + e) o' = om ++ ex) by (rewrite Eo', Er, Ej, app_assoc; apply firstn_app_l; rewrite app_length; lia).
  assert (Fd : firstn (length dm + e) d' = dm ++ ex) by (rewrite Ed', Er, Ej, app_assoc; apply firstn_app_l; rewrite app_length; lia).
  change (if rp then 0 else hist_run dm rt) with e. rewrite Fo, Fd.
  assert (Hoe : okt (om ++ ex)) by (apply okt_app; auto). assert (Hde : okt (dm ++ ex)) by (apply okt_app; auto).
  exists lt, (om ++ ex), (dm ++ ex), rt'.
  split; [rewrite Eo, Eo', Er, <- app_assoc; reflexivity|]. split; [rewrite Ed, Ed', Er, <- app_assoc; reflexivity|]. split; [exact Olt|]. split; [exact Hoe|]. split; [exact Hde|]. split; [exact Ort|].
  split; [rewrite Co, Co', Cr, (cells_split gl ok solid It om ex) by assumption; rewrite <- app_assoc; reflexivity|]. split; [rewrite Cd, Cd', Cr, (cells_split gl ok solid It dm ex) by assumption; rewrite <- app_assoc; reflexivity|].
  split; [intro Rp; specialize (Hr0 Rp); destruct rt; [destruct ex; [exact (eq_sym Er)|discriminate Er]|cbn [length] in Lr; lia]|].
  cbn [u_lcol u_rcol u_lind u_rind u_delta u_eol].
  split; [reflexivity|]. split; [rewrite (cells_len gl ok solid It _ Hde); reflexivity|].
  split; [rewrite Ed, Ed', Er; replace (lt ++ dm ++ ex ++ rt') with ((lt ++ dm ++ ex) ++ rt') by (rewrite <- !app_assoc; reflexivity); rewrite firstn_app_l by (rewrite !app_length; lia); apply skipn_app_l; reflexivity|].
  split.
  { rewrite <- (cells_len gl ok solid It _ Hde), <- (cells_len gl ok solid It _ Hoe). rewrite Eo', Er. rewrite !app_length. destruct rt' as [|c rt']; cbn [length]; [replace (length om + length ex <? length om + (length ex + 0)) with false by lia; reflexivity|]. replace (length om + length ex <? length om + (length ex + S (length rt'))) with true by lia. reflexivity. }
  split; [destruct rp; [auto|intro X; apply andb_true_iff in X; apply X]|].
  intros X -> T. apply andb_true_iff in X as [_ X]. assert (Y : rt = [] \/ exists c, rt = [c] /\ is_blank c = true).
  { apply (blank_scan_tidy before 0 (lt ++ dm)); [|exact X]. rewrite <- app_assoc, <- Ed', <- Ed. exact T. }
  destruct Y as [->|(c & -> & Hc)]; [destruct ex; [left; symmetry; exact Er|discriminate Er]|]. destruct ex as [|c' ex]; [right; exists c; split; [symmetry; exact Er|exact Hc]|]. injection Er as <- Er. left. destruct ex; [symmetry; exact Er|discriminate Er].
Qed.
End Diff.
