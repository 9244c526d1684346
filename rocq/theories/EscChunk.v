(** Proofs for output written in pieces. *)
From Verif Require Import Base UtfModel UtfSpec UtfProofs EscModel EscSpec EscChunkSpec EscProofs.

(** A silent step that does not depend on whether the next character is there yet. *)
Definition qsil (x : ctl) (c d : N) (y : ctl) : Prop := silent x c d y /\ silent x c 0 y /\ nest y = 0.
Inductive qsils : ctl -> list N -> N -> ctl -> Prop :=
| qs_nil x d : qsils x [] d x
| qs_cons x c cs d y z : qsil x c (hd d cs) y -> qsils y cs d z -> qsils x (c :: cs) d z.

Lemma qsils_silents x cs d y : qsils x cs d y -> silents x cs d y.
Proof. induction 1 as [x d|x c cs d y z [Hs _] H IH]; econstructor; eauto. Qed.
Lemma qsils_app x a b d y z : qsils x a (hd d b) y -> qsils y b d z -> qsils x (a ++ b) d z.
Proof.
  intros H1 H2. remember (hd d b) as d' eqn:Ed. induction H1 as [x d'|x c cs d' y w Hs H1 IH]; subst; [exact H2|].
  cbn [app]. econstructor; [|exact (IH eq_refl H2)]. destruct cs as [|c' cs]; exact Hs.
Qed.
(** a proper prefix, then the rest *)
Lemma qsils_cut a : forall x b d z, qsils x (a ++ b) d z -> exists y, silents x a 0 y /\ qsils y b d z /\ (a <> [] -> nest y = 0).
Proof.
  induction a as [|c a IH]; intros x b d z H; [exists x; split; [constructor|]; split; [exact H|congruence]|].
  cbn [app] in H. inversion_clear H as [|? ? ? ? y ? (Hs & H0 & Hn) H2]. destruct (IH y b d z H2) as (w & A & B & C). exists w. split; [|split; [exact B|]].
  - econstructor; [|exact A]. destruct a as [|c' a]; [exact H0|exact Hs].
  - intros _. destruct a as [|c' a]; [inversion A; subst; exact Hn|apply C; discriminate].
Qed.
Lemma q_any x c d y : (forall d, silent x c d y) -> nest y = 0 -> qsil x c d y.
Proof. intros H Hn. split; [apply H|]. split; [apply H|exact Hn]. Qed.
Lemma qs_same (st : est) ty cod cs d (P : N -> Prop) : (forall c d, P c -> silent (st, 0, ty, cod) c d (st, 0, ty, cod)) -> Forall P cs -> qsils (st, 0, ty, cod) cs d (st, 0, ty, cod).
Proof. intros HP H. induction H as [|c cs Hc H IH]; [constructor|]. econstructor; [apply q_any; [intro; apply HP; exact Hc|reflexivity]|exact IH]. Qed.

Lemma q_intro e k ty cod d : opens k -> Forall scalar (intro e k) -> qsils (u0 ty cod) (intro e k) d (after_intro k, 0, TC1, k).
Proof.
  intros Hk Hs. pose proof (fun d => sil_intro e k ty cod d Hk Hs) as H. destruct e; cbn [intro] in *.
  - econstructor; [apply q_any; [intro; apply sil_esc|reflexivity]|]. econstructor; [|constructor]. apply q_any; [|reflexivity]. intro d'.
    specialize (H d'). inversion_clear H as [|? ? ? ? y ? Ha Hb]. inversion_clear Hb as [|? ? ? ? y2 ? Hc Hd].
    assert (y = (SEsc, 0, ty, cod)) as ->.
    { destruct Ha as [Hsc Ha]. cbn [hd] in Ha. destruct (Ha [] true (utf8 k)) as [E _]; [unfold peekt; rewrite <- (app_nil_r (utf8 k)), d8_scalar by (exact (Forall_inv (Forall_inv_tail Hs))); reflexivity|].
      destruct (sil_esc ty cod k) as [_ Hb]. destruct (Hb [] true (utf8 k)) as [E2 _]; [unfold peekt; rewrite <- (app_nil_r (utf8 k)), d8_scalar by (exact (Forall_inv (Forall_inv_tail Hs))); reflexivity|].
      rewrite E in E2. destruct y as [[[? ?] ?] ?]. cbn in E2. injection E2. intros; subst. reflexivity. }
    inversion Hd; subst. exact Hc.
  - econstructor; [|constructor]. apply q_any; [|reflexivity]. intro d'. specialize (H d'). inversion_clear H as [|? ? ? ? y ? Ha Hb]. inversion Hb; subst. exact Ha.
Qed.

Lemma qs_csi_i ty cod is d : Forall (fun c => 32 <= c <= 47)%N is -> exists st, (st = SCsiP \/ st = SCsiF) /\ qsils (SCsiP, 0, ty, cod) is d (st, 0, ty, cod).
Proof.
  intro H. destruct H as [|c is Hc H]; [exists SCsiP; split; [auto|constructor]|]. exists SCsiF. split; [auto|].
  econstructor; [apply q_any; [intro; apply silent_csi_pi; exact Hc|reflexivity]|].
  apply (qs_same _ _ _ _ _ (fun c => 32 <= c <= 47)%N); [intros; apply silent_csi_i; assumption|exact H].
Qed.
Lemma q_end ty cod : qsil (SCmd, 0, ty, cod) 27 92 (SEscSt, 0, ty, cod).
Proof. split; [apply silent_end; lia|]. split; [apply silent_end; lia|reflexivity]. Qed.

Lemma token_qshape k ty cod : kok k -> kflat k -> (match k with KText _ => False | _ => True end) ->
  exists cs c y, ktext k = cs ++ [c] /\ qsils (u0 ty cod) cs c y /\ final y c (fst (kview k)) (snd (kview k)).
Proof.
  intros [Hs Hk] Hfl Hnt. destruct k as [cs|c|e k|k|e ps is f|e k b t|e b t]; [contradiction| | | | | |]; cbn [ktext kview fst snd kflat] in *.
  - exists [], c. eexists. split; [reflexivity|]. split; [constructor|]. apply final_c0; [exact (Forall_inv Hs)|exact Hk].
  - destruct Hk as [R Ho]. destruct e; cbn [intro] in *.
    + exists [27%N], k. eexists. split; [reflexivity|]. split; [econstructor; [apply q_any; [intro; apply sil_esc|reflexivity]|constructor]|]. apply final_c1_esc; auto. exact (Forall_inv (Forall_inv_tail Hs)).
    + exists [], (k + 64)%N. eexists. split; [reflexivity|]. split; [constructor|]. apply final_c1_8; auto. exact (Forall_inv Hs).
  - exists [27%N], k. eexists. split; [reflexivity|]. split; [econstructor; [apply q_any; [intro; apply sil_esc|reflexivity]|constructor]|]. apply final_icf; auto. exact (Forall_inv (Forall_inv_tail Hs)).
  - destruct Hk as (Hp & Hi & Hf). destruct (qs_csi_i TC1 91%N is f Hi) as (st & Hst & Hsi).
    exists (intro e 91 ++ ps ++ is), f, (st, 0, TC1, 91%N). split; [rewrite <- !app_assoc; reflexivity|]. split; [|apply final_csi; assumption].
    apply Forall_app in Hs as [Hsi0 _]. eapply qsils_app; [apply q_intro; [unfold opens; cbn; auto 10|exact Hsi0]|]. change (after_intro 91) with SCsiP.
    eapply qsils_app; [|exact Hsi]. apply (qs_same _ _ _ _ _ (fun c => 48 <= c <= 63)%N); [intros; apply silent_csi_p; assumption|exact Hp].
  - destruct Hk as (Hk & Hb & Ht). assert (Ho : opens k) by (unfold opens; cbn [In] in *; decompose [or] Hk; auto 10).
    assert (Ea : after_intro k = SCmd) by (cbn [In] in Hk; decompose [or] Hk; subst; try contradiction; reflexivity).
    apply Forall_app in Hs as [Hs0 Hs]. apply Forall_app in Hs as [Hsb Hst].
    assert (Hin : forall d, qsils (u0 ty cod) (intro e k ++ b) d (SCmd, 0, TC1, k)).
    { intro d. eapply qsils_app; [apply q_intro; [exact Ho|exact Hs0]|]. rewrite Ea. apply (qs_same _ _ _ _ _ (fun c => scalar c /\ strchar c)); [intros c d' [A B]; apply silent_str; assumption|].
      clear -Hfl Hsb. induction b as [|c b IH]; [constructor|]. inversion_clear Hfl as [|? ? Hc Hb']; inversion_clear Hsb as [|? ? Hsc Hsb']. constructor; [tauto|apply IH; assumption]. }
    cbn [In] in Ht. destruct Ht as [<-|[<-|[<-|[]]]].
    + exists (intro e k ++ b), 7%N, (SCmd, 0, TC1, k). split; [rewrite <- app_assoc; reflexivity|]. split; [apply Hin|apply final_cmd; auto].
    + exists (intro e k ++ b), 156%N, (SCmd, 0, TC1, k). split; [rewrite <- app_assoc; reflexivity|]. split; [apply Hin|apply final_cmd; auto].
    + exists ((intro e k ++ b) ++ [27%N]), 92%N, (SEscSt, 0, TC1, k). split; [rewrite <- !app_assoc; reflexivity|]. split; [|apply final_st].
      eapply qsils_app; [apply Hin|]. econstructor; [apply q_end|constructor].
  - destruct Hk as (Hb & Ht). apply Forall_app in Hs as [Hs0 Hs]. apply Forall_app in Hs as [Hsb Hst].
    assert (Hin : forall d, qsils (u0 ty cod) (intro e 88 ++ b) d (SChs, 0, TC1, 88%N)).
    { intro d. eapply qsils_app; [apply q_intro; [unfold opens; cbn; auto 10|exact Hs0]|]. change (after_intro 88) with SChs.
      apply (qs_same _ _ _ _ _ (fun c => scalar c /\ c <> 27 /\ c <> 156)%N); [intros c d' (A & B & C); apply silent_chs; assumption|].
      clear -Hb Hsb. induction b as [|c b IH]; [constructor|]. inversion_clear Hb as [|? ? Hc Hb']; inversion_clear Hsb as [|? ? Hsc Hsb']. constructor; [tauto|apply IH; assumption]. }
    cbn [In] in Ht. destruct Ht as [<-|[<-|[]]].
    + exists (intro e 88 ++ b), 156%N, (SChs, 0, TC1, 88%N). split; [rewrite <- app_assoc; reflexivity|]. split; [apply Hin|apply final_chs].
    + exists ((intro e 88 ++ b) ++ [27%N]), 92%N, (SEscSt, 0, TC1, 88%N). split; [rewrite <- !app_assoc; reflexivity|]. split; [|apply final_st].
      eapply qsils_app; [apply Hin|]. econstructor; [apply q_any; [intro; apply silent_chs_esc|reflexivity]|constructor].
Qed.

(** What is still to be reported, in a state, when code points [w] are still to come. *)
Inductive rem (s : estate) : list token -> list N -> Prop :=
| rem_idle ks : e_st s = SUnk -> e_clr s = true -> rem s ks (flat_map ktext ks)
| rem_mid ks p q c y z k : ktext k = p ++ q ++ [c] -> p <> [] -> s = mk y (bs p) false -> nest y = 0 -> e_st s <> SChar ->
    qsils y q c z -> final z c (fst (kview k)) (snd (kview k)) -> (match k with KText _ => False | _ => True end) ->
    rem s (k :: ks) (q ++ c :: flat_map ktext ks).

Definition fine (k : token) : Prop := kok k /\ short k /\ kflat k.
(** reported so far, still to be reported, the whole: a text run may be cut *)
Inductive cut : list token -> list token -> list token -> Prop :=
| cut_nil ks : cut [] ks ks
| cut_cons k out r l : cut out r l -> cut (k :: out) r (k :: l)
| cut_text a b l : b <> [] -> cut [KText a] (KText b :: l) (KText (a ++ b) :: l).
Inductive joins : list token -> list token -> Prop :=
| joins_nil : joins [] []
| joins_step out rest r l : cut out r l -> joins rest r -> joins (out ++ rest) l.

Lemma silents_notchar x cs y buf clr : silents x cs 0 y -> cs <> [] -> e_st (mk y buf clr) <> SChar.
Proof.
  intro H. remember 0%N as d eqn:Ed. induction H as [x d|x c cs d y z [Hc Hs] H IH]; [congruence|]. intros _. destruct cs as [|c' cs]; [|apply (IH Ed); discriminate].
  inversion H; subst. destruct (Hs buf clr [] eq_refl) as [_ Hch]. intro E. rewrite E in Hch. discriminate.
Qed.

Lemma bs_nil_iff a : bs a = [] -> a = [].
Proof. intro H. pose proof (bs_len a) as Hl. rewrite H in Hl. destruct a; [reflexivity|cbn in Hl; lia]. Qed.
Lemma enext_nil s : e_st s <> SChar -> enext s [] = Some (None, s, []).
Proof. intro H. unfold enext. cbn [length Nat.mul Nat.add nloop]. change (fst (d8 [])) with 0%N. cbn [N.eqb]. destruct (e_st s); try congruence; reflexivity. Qed.
Lemma codes_nil fuel s : e_st s <> SChar -> codes (S fuel) s [] = Some ([], s).
Proof. intro H. cbn [codes]. rewrite enext_nil by exact H. reflexivity. Qed.

(** the text ran out inside a control function *)
Lemma enext_open x a y buf clr : silents x a 0 y -> a <> [] -> nest x = 0 ->
  enext (mk x buf clr) (bs a) = Some (None, mk y ((if clr then [] else buf) ++ bs a) false, []).
Proof.
  intros H Ha Hn. unfold enext. assert (exists f, 2 * length (bs a) + 2 = length a + S f) as [f Ef].
  { exists (2 * length (bs a) + 1 - length a). pose proof (bs_len a). lia. }
  rewrite Ef. replace 0 with (nest x). rewrite <- (app_nil_r (bs a)). rewrite (nloop_silents x a 0 y H) by reflexivity.
  pose proof (silents_notchar x a y ((if clr then [] else buf) ++ bs a) false H Ha) as Hc. rewrite app_nil_r.
  destruct a as [|c a]; [congruence|]. cbn [nloop]. change (fst (d8 [])) with 0%N. cbn [N.eqb].
  destruct (e_st (mk y ((if clr then [] else buf) ++ bs (c :: a)) false)) eqn:E; try congruence; reflexivity.
Qed.
(** the end of a control function *)
Lemma enext_close x q c z ty cod buf clr r : silents x q c z -> final z c ty cod -> nest x = 0 ->
  exists s, enext (mk x buf clr) (bs q ++ utf8 c ++ r) = Some (Some (ty, cod, (if clr then [] else buf) ++ bs q ++ utf8 c), s, r) /\ e_st s = SUnk /\ e_clr s = true.
Proof.
  intros H Hf Hn. unfold enext. assert (exists f, 2 * length (bs q ++ utf8 c ++ r) + 2 = length q + S f) as [f Ef].
  { exists (2 * length (bs q ++ utf8 c ++ r) + 1 - length q). pose proof (bs_len q). rewrite app_length. lia. }
  rewrite Ef. replace 0 with (nest x). rewrite (nloop_silents x q c z H) by (apply peek_utf8; exact (proj1 Hf)).
  destruct q as [|c0 q].
  - inversion H; subst. destruct (nloop_final _ c _ _ f buf clr (bs [] ++ utf8 c ++ r) r Hf) as (st & En & _). eexists. split; [exact En|]. split; reflexivity.
  - destruct (nloop_final _ c _ _ f ((if clr then [] else buf) ++ bs (c0 :: q)) false (bs (c0 :: q) ++ utf8 c ++ r) r Hf) as (st & En & _). eexists. split; [etransitivity; [exact En|rewrite <- app_assoc; reflexivity]|]. split; reflexivity.
Qed.

Definition outcome (fuel : nat) (s : estate) (a b : list N) (ks : list token) : Prop :=
  exists l s1 out ks', codes fuel s (bs a) = Some (l, s1) /\ map cview l = map kcode out /\ rem s1 ks' b /\ cut out ks' ks /\ Forall fine ks' /\ separated ks'.

Lemma app_last_split {A} (cs : list A) c a l : cs ++ [c] = a ++ l -> l <> [] -> exists l', l = l' ++ [c] /\ cs = a ++ l'.
Proof.
  intros H Hl. destruct (exists_last Hl) as (l' & c' & ->). rewrite app_assoc in H. apply app_inj_tail in H as [-> ->]. exists l'. auto.
Qed.
Lemma codes_emit fuel s t ty c x s1 t1 k : enext s t = Some (Some (ty, c, x), s1, t1) -> x = bs (ktext k) -> kok k -> short k ->
  codes (S fuel) s t = match codes fuel s1 t1 with None => None | Some (l, s2) => Some ((ty, c, x) :: l, s2) end.
Proof. intros E -> Hk Hs. cbn [codes]. rewrite E. destruct (short_len k Hk Hs) as [-> ->]. reflexivity. Qed.

Lemma fine_text_suffix a l : fine (KText (a ++ l)) -> l <> [] -> fine (KText l).
Proof.
  intros ((Hs & H32 & _) & Hsh & Hfl) Hl. cbn [ktext kflat] in *. unfold short in *. cbn [ktext] in *. unfold bytes_of in Hsh. rewrite flat_map_app, app_length in Hsh. fold (bytes_of l) in Hsh.
  apply Forall_app in Hs as [_ Hs]. apply Forall_app in H32 as [_ H32]. apply Forall_app in Hfl as [_ Hfl].
  split; [|split; [unfold short, bytes_of in *; cbn [ktext]; lia|exact Hfl]]. split; [exact Hs|]. split; [exact H32|]. destruct l as [|c l]; [congruence|]. exists c, l. split; [reflexivity|exact (Forall_inv Hfl)].
Qed.
Lemma fine_text_prefix a l : fine (KText (a ++ l)) -> a <> [] -> fine (KText a).
Proof.
  intros ((Hs & H32 & _) & Hsh & Hfl) Hl. cbn [ktext kflat] in *. unfold short in *. cbn [ktext] in *. unfold bytes_of in Hsh. rewrite flat_map_app, app_length in Hsh. fold (bytes_of a) in Hsh.
  apply Forall_app in Hs as [Hs _]. apply Forall_app in H32 as [H32 _]. apply Forall_app in Hfl as [Hfl _].
  split; [|split; [unfold short, bytes_of in *; cbn [ktext]; lia|exact Hfl]]. split; [exact Hs|]. split; [exact H32|]. destruct a as [|c a]; [congruence|]. exists c, a. split; [reflexivity|exact (Forall_inv Hfl)].
Qed.

Lemma nontext k : {cs | k = KText cs} + {match k with KText _ => False | _ => True end}.
Proof. destruct k; eauto. Qed.

Lemma idle_step ks : Forall fine ks -> separated ks -> forall s a b fuel, e_st s = SUnk -> e_clr s = true -> flat_map ktext ks = a ++ b -> length a < fuel -> outcome fuel s a b ks.
Proof.
  induction 1 as [|k ks Hk Hks IH]; intros Hsep s a b fuel Es Ec Hw Hf.
  - cbn in Hw. symmetry in Hw. apply app_eq_nil in Hw as [-> ->]. destruct fuel as [|fuel]; [lia|]. exists [], s, [], []. cbn [bs bytes_of flat_map].
    split; [apply codes_nil; congruence|]. split; [reflexivity|]. split; [apply (rem_idle s []); assumption|]. split; [constructor|]. split; [constructor|exact I].
  - destruct fuel as [|fuel]; [lia|]. destruct a as [|a0 a].
    { exists [], s, [], (k :: ks). split; [apply codes_nil; congruence|]. split; [reflexivity|]. cbn [app] in Hw. subst b. split; [apply rem_idle; assumption|]. split; [constructor|]. split; [constructor; assumption|exact Hsep]. }
    assert (Ha : a0 :: a <> []) by discriminate. set (aa := a0 :: a) in *. clearbody aa. clear a0 a.
    cbn [flat_map] in Hw. destruct s as [st buf clr ty cod]. cbn [e_st e_clr] in Es, Ec. subst st clr.
    assert (HB : forall a', aa = ktext k ++ a' -> flat_map ktext ks = a' ++ b -> outcome (S fuel) (mkE SUnk buf true ty cod) aa b (k :: ks)).
    { intros a' -> Hw'. destruct Hk as (Hok & Hsh & Hfl).
      assert (Hla : length a' < fuel). { rewrite app_length in Hf. destruct (ktext_ne k Hok) as (c & x & E & _). rewrite E in Hf. cbn [length] in Hf. lia. }
      assert (exists c0 s1, enext (mkE SUnk buf true ty cod) (bs (ktext k ++ a')) = Some (Some (fst (kview k), c0, bs (ktext k)), s1, bs a') /\ cview (fst (kview k), c0, bs (ktext k)) = kcode k /\ e_st s1 = SUnk /\ e_clr s1 = true) as (c0 & s1 & En & Hv & Es1 & Ec1).
      { rewrite bs_app. destruct (nontext k) as [[cs ->]|Hnt].
        - exists cod, (mkE SUnk buf true TChars cod). split; [|auto]. apply enext_text; [exact Hok|]. destruct a' as [|c a']; [cbn; lia|].
          destruct ks as [|k2 ks]; [discriminate Hw'|]. cbn [separated] in Hsep. destruct Hsep as [(c' & x & E & Hc) _].
          cbn [flat_map] in Hw'. rewrite E in Hw'. cbn [app] in Hw'. injection Hw' as <- _. rewrite bs_cons. unfold peekt. rewrite peek_utf8; [exact Hc|].
          apply Forall_inv in Hks. destruct Hks as ((Hsc & _) & _). rewrite E in Hsc. exact (Forall_inv Hsc).
        - destruct (enext_token k ty cod buf (bs a') Hok Hnt) as (ty' & cod' & E). exists (snd (kview k)), (mkE SUnk (bs (ktext k)) true ty' cod'). split; [exact E|]. split; [|auto].
          destruct k; try contradiction; reflexivity. }
      destruct (IH (separated_tail k ks Hsep) s1 a' b fuel Es1 Ec1 Hw' Hla) as (l & s2 & out & ks' & E2 & Hm & Hr & Hc & Hfi & Hse).
      eexists. exists s2, (k :: out), ks'. split; [rewrite (codes_emit fuel _ _ _ _ _ _ _ k En eq_refl Hok Hsh), E2; reflexivity|].
      split; [cbn [map]; rewrite Hv, Hm; reflexivity|]. split; [exact Hr|]. split; [constructor; exact Hc|]. split; assumption. }
    destruct (app_eq_app _ _ _ _ Hw) as (l & [[E1 E2]|[E1 E2]]); [|exact (HB l E1 E2)].
    destruct l as [|l0 l]; [rewrite app_nil_r in E1; cbn [app] in E2; apply (HB []); [rewrite app_nil_r; symmetry; exact E1|symmetry; exact E2]|].
    assert (Hl : l0 :: l <> []) by discriminate. set (ll := l0 :: l) in *. clearbody ll. clear l0 l. subst b.
    destruct (nontext k) as [[cs ->]|Hnt].
    + cbn [ktext] in E1. subst cs. pose proof (fine_text_prefix aa ll Hk Ha) as Hfp. destruct Hfp as (Hok & Hsh & _).
      destruct fuel as [|fuel]; [destruct aa; [congruence|cbn in Hf; lia]|].
      pose proof (enext_text aa ty cod buf [] Hok ltac:(cbn; lia)) as En. rewrite app_nil_r in En.
      eexists. exists (mkE SUnk buf true TChars cod), [KText aa], (KText ll :: ks). split; [rewrite (codes_emit _ _ _ _ _ _ _ _ (KText aa) En eq_refl Hok Hsh), codes_nil by discriminate; reflexivity|].
      split; [reflexivity|]. split; [change (ll ++ flat_map ktext ks) with (flat_map ktext (KText ll :: ks)); apply rem_idle; reflexivity|]. split; [constructor; exact Hl|].
      split; [constructor; [exact (fine_text_suffix aa ll Hk Hl)|exact Hks]|]. exact Hsep.
    + destruct Hk as (Hok & Hsh & Hfl). destruct (token_qshape k ty cod Hok Hfl Hnt) as (cs & c & z & E & Hq & Hfin). rewrite E in E1.
      destruct (app_last_split cs c aa ll E1 Hl) as (l' & -> & ->). destruct (qsils_cut aa _ l' c z Hq) as (y & Hs0 & Hq2 & Hn).
      exists [], (mk y (bs aa) false), [], (k :: ks).
      split; [cbn [codes]; change (mkE SUnk buf true ty cod) with (mk (u0 ty cod) buf true); rewrite (enext_open _ aa y buf true Hs0 Ha eq_refl); reflexivity|].
      split; [reflexivity|]. split.
      { rewrite <- app_assoc. cbn [app]. apply (rem_mid _ ks aa l' c y z k); auto. - rewrite E, <- app_assoc. reflexivity. - exact (silents_notchar _ _ _ _ _ Hs0 Ha). }
      split; [constructor|]. split; [constructor; [exact (conj Hok (conj Hsh Hfl))|exact Hks]|exact Hsep].
Qed.

Lemma chunk_step s ks a b w : Forall fine ks -> separated ks -> rem s ks w -> w = a ++ b -> outcome (S (length (bs a))) s a b ks.
Proof.
  intros Hks Hsep Hr Hw. destruct Hr as [ks Es Ec|ks p q c y z k E Hp Es Hn Hnc Hq Hf Hnt].
  - apply idle_step; auto. pose proof (bs_len a). lia.
  - destruct a as [|a0 a].
    { exists [], s, [], (k :: ks). cbn [bs bytes_of flat_map length]. split; [apply codes_nil; exact Hnc|]. split; [reflexivity|]. cbn [app] in Hw. subst b. split; [eapply rem_mid; eauto|]. split; [constructor|]. split; assumption. }
    assert (Ha : a0 :: a <> []) by discriminate. set (aa := a0 :: a) in *. clearbody aa. clear a0 a.
    inversion_clear Hks as [|? ? Hk Hks']. destruct Hk as (Hok & Hsh & Hfl). subst s.
    assert (HB : forall a', aa = (q ++ [c]) ++ a' -> flat_map ktext ks = a' ++ b -> outcome (S (length (bs aa))) (mk y (bs p) false) aa b (k :: ks)).
    { intros a' Ea Hw'. destruct (enext_close y q c z _ _ (bs p) false (bs a') (qsils_silents _ _ _ _ Hq) Hf Hn) as (s1 & En & Es1 & Ec1).
      assert (Eb : bs aa = bs q ++ utf8 c ++ bs a') by (rewrite Ea, !bs_app; cbn [bs bytes_of flat_map]; rewrite app_nil_r, <- app_assoc; reflexivity).
      rewrite <- Eb in En. assert (Ek : bs p ++ bs q ++ utf8 c = bs (ktext k)) by (rewrite E, !bs_app; cbn [bs bytes_of flat_map]; rewrite app_nil_r; reflexivity).
      assert (Hla : length a' < length (bs aa)). { pose proof (bs_len aa) as Hl. rewrite Ea, !app_length in Hl at 1. cbn [length] in Hl. lia. }
      destruct (idle_step ks Hks' (separated_tail k ks Hsep) s1 a' b (length (bs aa)) Es1 Ec1 Hw' Hla) as (l & s2 & out & ks' & E2 & Hm & Hr & Hc & Hfi & Hse).
      eexists. exists s2, (k :: out), ks'. split; [rewrite (codes_emit _ _ _ _ _ _ _ _ k En Ek Hok Hsh), E2; reflexivity|].
      split; [|split; [exact Hr|]; split; [constructor; exact Hc|]; split; assumption].
      cbn [map]. rewrite Hm. f_equal. cbv iota. rewrite Ek. destruct k; try contradiction; reflexivity. }
    replace (q ++ c :: flat_map ktext ks) with ((q ++ [c]) ++ flat_map ktext ks) in Hw by (rewrite <- app_assoc; reflexivity).
    destruct (app_eq_app _ _ _ _ Hw) as (l & [[E1 E2]|[E1 E2]]); [|exact (HB l E1 E2)].
    destruct l as [|l0 l]; [rewrite app_nil_r in E1; cbn [app] in E2; apply (HB []); [rewrite app_nil_r; symmetry; exact E1|symmetry; exact E2]|].
    assert (Hl : l0 :: l <> []) by discriminate. set (ll := l0 :: l) in *. clearbody ll. clear l0 l. subst b.
    destruct (app_last_split q c aa ll E1 Hl) as (l' & -> & ->). destruct (qsils_cut aa _ l' c z Hq) as (y2 & Hs0 & Hq2 & Hn2).
    exists [], (mk y2 (bs (p ++ aa)) false), [], (k :: ks).
    split; [cbn [codes]; rewrite (enext_open _ aa y2 (bs p) false Hs0 Ha Hn), <- bs_app; reflexivity|].
    split; [reflexivity|]. split.
    { rewrite <- app_assoc. cbn [app]. apply (rem_mid _ ks (p ++ aa) l' c y2 z k); auto. - rewrite E, <- !app_assoc. reflexivity. - destruct p; [congruence|discriminate]. - exact (silents_notchar _ _ _ _ _ Hs0 Ha). }
    split; [constructor|]. split; [constructor; [exact (conj Hok (conj Hsh Hfl))|exact Hks']|exact Hsep].
Qed.

Lemma rem_done s ks : Forall fine ks -> rem s ks [] -> ks = [] /\ e_st s = SUnk.
Proof.
  intros Hk H. remember (@nil N) as w eqn:Ew. destruct H as [ks Es Ec|ks p q c y z k]; [|destruct q; discriminate].
  split; [|exact Es]. destruct Hk as [|k ks (Hok & _) Hk]; [reflexivity|]. destruct (ktext_ne k Hok) as (c & x & E & _). cbn [flat_map] in Ew. rewrite E in Ew. discriminate.
Qed.

Lemma writes_joins ws : forall s ks w, Forall fine ks -> separated ks -> rem s ks w -> concat ws = w ->
  exists l s' out, writes s (map bytes_of ws) = Some (l, s') /\ map cview l = map kcode out /\ joins out ks /\ e_st s' = SUnk.
Proof.
  induction ws as [|a ws IH]; intros s ks w Hf Hsep Hr Hw; cbn [concat] in Hw.
  - subst w. destruct (rem_done s ks Hf Hr) as [-> Es]. exists [], s, []. split; [reflexivity|]. split; [reflexivity|]. split; [constructor|exact Es].
  - destruct (chunk_step s ks a (concat ws) w Hf Hsep Hr (eq_sym Hw)) as (l & s1 & out & ks' & E & Hm & Hr1 & Hc & Hf1 & Hsep1).
    destruct (IH s1 ks' (concat ws) Hf1 Hsep1 Hr1 eq_refl) as (l2 & s2 & out2 & E2 & Hm2 & Hj & Es).
    exists (l ++ l2), s2, (out ++ out2). cbn [map writes]. unfold parse. change (bytes_of a) with (bs a). rewrite E, E2. split; [reflexivity|].
    split; [rewrite !map_app, Hm, Hm2; reflexivity|]. split; [econstructor; eassumption|exact Es].
Qed.

Definition is_text (k : token) : Prop := match k with KText _ => True | _ => False end.
Lemma merge_cons_text cs r k l : merge r = kcode k :: l -> ~ is_text k -> merge (kcode (KText cs) :: r) = kcode (KText cs) :: kcode k :: l.
Proof. intros E Hn. cbn [kcode kview merge]. rewrite E. destruct k; try reflexivity. exfalso. apply Hn. exact I. Qed.
Lemma kcode_merge_nt k r : ~ is_text k -> kok k -> merge (kcode k :: r) = kcode k :: merge r.
Proof. intros Hn _. destruct k; try reflexivity. exfalso. apply Hn. exact I. Qed.

Lemma sep_next cs k l : separated (KText cs :: k :: l) -> kok k -> ~ is_text k.
Proof.
  cbn [separated]. intros [(c & x & E & Hc) _] (Hs & Hk) Ht. destruct k as [ct| | | | | |]; try contradiction. cbn [ktext] in E. subst ct. destruct Hk as (H32 & _). apply Forall_inv in H32. lia.
Qed.
Lemma merge_tokens_cons k r ks : Forall fine (k :: ks) -> separated (k :: ks) -> merge r = map kcode ks -> merge (kcode k :: r) = map kcode (k :: ks).
Proof.
  intros Hf Hsep Hm. cbn [map]. destruct k as [cs| | | | | |]; try (cbn [kcode kview merge]; rewrite Hm; reflexivity).
  destruct ks as [|k2 ks]; [cbn [kcode kview merge]; rewrite Hm; reflexivity|].
  cbn [map] in *. apply merge_cons_text; [exact Hm|]. apply (sep_next cs k2 ks Hsep). exact (proj1 (Forall_inv (Forall_inv_tail Hf))).
Qed.
Lemma merge_cut out r l : cut out r l -> Forall fine l -> separated l -> forall rest, merge (map kcode rest) = map kcode r -> merge (map kcode (out ++ rest)) = map kcode l.
Proof.
  induction 1 as [ks|k out r l H IH|a b l Hb]; intros Hf Hsep rest Hm.
  - exact Hm.
  - cbn [app map]. apply merge_tokens_cons; [exact Hf|exact Hsep|]. apply IH; auto; [exact (Forall_inv_tail Hf)|exact (separated_tail k l Hsep)].
  - cbn [app map kcode kview ktext merge]. rewrite Hm. cbn [map]. unfold kcode at 1 2. cbn [kview ktext]. f_equal. change (kcode (KText (a ++ b))) with (TChars, 0%N, bs (a ++ b)). rewrite bs_app. reflexivity.
Qed.
Lemma cut_fine out r l : cut out r l -> Forall fine l -> separated l -> Forall fine r /\ separated r.
Proof.
  induction 1 as [ks|k out r l H IH|a b l Hb]; intros Hf Hsep; [auto|apply IH; [exact (Forall_inv_tail Hf)|exact (separated_tail k l Hsep)]|].
  inversion_clear Hf as [|? ? Hk Hf']. split; [constructor; [exact (fine_text_suffix a b Hk Hb)|exact Hf']|exact Hsep].
Qed.
Lemma merge_joins out ks : joins out ks -> Forall fine ks -> separated ks -> merge (map kcode out) = map kcode ks.
Proof.
  induction 1 as [|out rest r l Hc Hj IH]; intros Hf Hsep; [reflexivity|]. destruct (cut_fine out r l Hc Hf Hsep) as [Hfr Hsr]. apply (merge_cut out r l Hc Hf Hsep). apply IH; assumption.
Qed.

Theorem writes_tokens ks ws ty cod : Forall kok ks -> Forall short ks -> Forall kflat ks -> separated ks -> concat ws = flat_map ktext ks ->
  exists l s, writes (fresh ty cod) (map bytes_of ws) = Some (l, s) /\ merge (map cview l) = map kcode ks /\ e_st s = SUnk.
Proof.
  intros H1 H2 H3 Hsep Hw. assert (Hf : Forall fine ks).
  { apply Forall_forall. intros k Hk. rewrite Forall_forall in H1, H2, H3. split; [|split]; auto. }
  destruct (writes_joins ws (fresh ty cod) ks (flat_map ktext ks) Hf Hsep (rem_idle (fresh ty cod) ks eq_refl eq_refl) Hw) as (l & s & out & E & Hm & Hj & Es).
  exists l, s. split; [exact E|]. split; [rewrite Hm; apply merge_joins; assumption|exact Es].
Qed.
