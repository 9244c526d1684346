(** Proofs for EscModel. *)
From Verif Require Import Base UtfModel UtfSpec UtfProofs EscModel EscSpec.

Lemma between_app a b : between (a ++ b) b = a.
Proof. unfold between. rewrite app_length. replace (length a + length b - length b) with (length a) by lia. apply firstn_app_exact. reflexivity. Qed.
Lemma between_self a : between a a = [].
Proof. unfold between. rewrite Nat.sub_diag. reflexivity. Qed.

Lemma scalar_pos v : scalar v -> v <> 0%N.
Proof. unfold scalar. lia. Qed.
Lemma d8_scalar v r : scalar v -> d8 (utf8 v ++ r) = (v, r).
Proof. intro H. apply dl8_utf8. apply scalar_bound in H. lia. Qed.

Definition peekt (t : list N) : N := fst (d8 t).
Definition bs := bytes_of.
Lemma bs_cons c r : bs (c :: r) = utf8 c ++ bs r.
Proof. reflexivity. Qed.
Lemma bs_app a b : bs (a ++ b) = bs a ++ bs b.
Proof. apply flat_map_app. Qed.

(** A silent step: one character is consumed, nothing is emitted, and the text is kept in the buffer.  [d] is the
    character after it. *)
Definition ctl := (est * nat * ctype * N)%type.
Definition mk (x : ctl) (buf : list N) (clr : bool) : estate := let '(st, n, ty, cod) := x in mkE st buf clr ty cod.
Definition nest (x : ctl) : nat := let '(_, n, _, _) := x in n.
Definition silent (x : ctl) (c d : N) (y : ctl) : Prop :=
  scalar c /\ forall buf clr r, peekt r = d ->
    estep c (mk x buf clr) (utf8 c ++ r) (nest x) = (false, mk y buf clr, r, nest y, false) /\
    is_char (e_st (mk y buf clr)) = false.
Definition final (x : ctl) (c : N) (ty : ctype) (cod : N) : Prop :=
  scalar c /\ forall buf clr r, exists st n,
    estep c (mk x buf clr) (utf8 c ++ r) (nest x) = (true, mkE st buf clr ty cod, r, n, false) /\ is_char st = false.

Inductive silents : ctl -> list N -> N -> ctl -> Prop :=
| sil_nil x d : silents x [] d x
| sil_cons x c cs d y z : silent x c (hd d cs) y -> silents y cs d z -> silents x (c :: cs) d z.

Lemma silents_app x a b d y z : silents x a (hd d b) y -> silents y b d z -> silents x (a ++ b) d z.
Proof.
  intros H1 H2. remember (hd d b) as d' eqn:Ed. induction H1 as [x d'|x c cs d' y w Hs H1 IH]; subst; [exact H2|].
  cbn [app]. econstructor; [|exact (IH eq_refl H2)]. destruct cs as [|c' cs]; exact Hs.
Qed.
Lemma peek_utf8 c r : scalar c -> fst (d8 (utf8 c ++ r)) = c.
Proof. intro H. rewrite d8_scalar by exact H. reflexivity. Qed.

Lemma nloop_silent x c d y fuel buf clr copy start r : silent x c d y -> peekt r = d -> between copy (utf8 c ++ r) = [] ->
  length (utf8 c ++ r) = length copy -> copy = utf8 c ++ r ->
  nloop (S fuel) (mk x buf clr) (nest x) (utf8 c ++ r) start copy
  = nloop fuel (mk y ((if clr then [] else buf) ++ utf8 c) false) (nest y) r start r.
Proof.
  intros [Hc Hs] Hd _ _ ->. cbn [nloop]. rewrite peek_utf8 by exact Hc. replace (c =? 0)%N with false by (pose proof (scalar_pos c Hc); lia).
  destruct (Hs buf clr r Hd) as [E Hch]. rewrite E. cbv beta iota. unfold save. rewrite Hch. rewrite between_app.
  destruct y as [[[st n] ty] cod]. reflexivity.
Qed.

Lemma nloop_silents x cs d y : silents x cs d y -> forall fuel buf clr start r, peekt r = d ->
  nloop (length cs + fuel) (mk x buf clr) (nest x) (bs cs ++ r) start (bs cs ++ r)
  = nloop fuel (match cs with [] => mk x buf clr | _ => mk y ((if clr then [] else buf) ++ bs cs) false end) (nest y) r start r.
Proof.
  induction 1 as [x d|x c cs d y z Hs H IH]; intros fuel buf clr start r Hr; [reflexivity|].
  cbn [length Nat.add]. rewrite bs_cons, <- app_assoc.
  rewrite (nloop_silent x c (hd d cs) y); auto.
  - rewrite IH by exact Hr. destruct cs as [|c' cs]; [inversion H; subst; cbn [bs bytes_of flat_map]; rewrite app_nil_r; reflexivity|].
    cbv iota. rewrite <- app_assoc. reflexivity.
  - destruct cs as [|c' cs]; [exact Hr|]. inversion H as [|? ? ? ? ? ? [Hc' _]]; subst. rewrite bs_cons, <- app_assoc. apply peek_utf8. exact Hc'.
  - rewrite between_self. reflexivity.
Qed.

Lemma nloop_final x c ty cod fuel buf clr start r : final x c ty cod ->
  exists st, nloop (S fuel) (mk x buf clr) (nest x) (utf8 c ++ r) start (utf8 c ++ r)
  = Some (Some (ty, cod, (if clr then [] else buf) ++ utf8 c), mkE SUnk ((if clr then [] else buf) ++ utf8 c) true ty cod, r) /\ is_char st = false.
Proof.
  intros [Hc Hf]. destruct (Hf buf clr r) as (st & n & E & Hst). exists st. split; [|exact Hst].
  cbn [nloop]. rewrite peek_utf8 by exact Hc. replace (c =? 0)%N with false by (pose proof (scalar_pos c Hc); lia).
  rewrite E. cbv beta iota. unfold save. cbn [e_st e_buf e_clr e_typ e_cod]. rewrite Hst, between_app. cbn [e_st e_buf e_clr e_typ e_cod]. rewrite Hst. reflexivity.
Qed.

(** ** the control functions *)
Definition u0 (ty : ctype) (cod : N) : ctl := (SUnk, 0, ty, cod).

Ltac step1 := split; [assumption || (unfold scalar; lia)|]; intros buf clr r Hr; cbn [mk nest]; unfold estep; cbn [e_st].

Lemma sil_esc ty cod d : silent (u0 ty cod) 27 d (SEsc, 0, ty, cod).
Proof. step1. unfold next_unknown, adv. rewrite d8_scalar by (unfold scalar; lia). split; reflexivity. Qed.

Lemma c1_7bit k : (64 <= k <= 95)%N -> N.lor (N.land k 31) 64 = k.
Proof.
  intro H. assert (E : (k = 64 + (k - 64))%N) by lia. assert (Hs : (k - 64 < 32)%N) by lia. rewrite E. set (j := (k - 64)%N) in *. clearbody j. clear - Hs.
  apply N.eqb_eq. revert j Hs. apply (forall_lt (fun j => N.lor (N.land (64 + j) 31) 64 =? 64 + j)%N 32). vm_compute. reflexivity.
Qed.
Lemma c1_8bit k : (64 <= k <= 95)%N -> N.lor (N.land (k + 64) 31) 64 = k.
Proof.
  intro H. assert (E : (k = 64 + (k - 64))%N) by lia. assert (Hs : (k - 64 < 32)%N) by lia. rewrite E. set (j := (k - 64)%N) in *. clearbody j. clear - Hs.
  apply N.eqb_eq. revert j Hs. apply (forall_lt (fun j => N.lor (N.land (64 + j + 64) 31) 64 =? 64 + j)%N 32). vm_compute. reflexivity.
Qed.

(** the introducer of a C1 control *)
Definition after_intro (k : N) : est := if (k =? 91)%N then SCsiP else if (k =? 88)%N then SChs else SCmd.
Definition opens (k : N) : Prop := In k [80; 88; 91; 93; 94; 95]%N.

Lemma next_c1_opens k s : opens k -> e_cod s = k \/ e_cod s = (k + 64)%N -> next_c1 s = (false, mkE (after_intro k) (e_buf s) (e_clr s) (e_typ s) k).
Proof.
  intros Hk Hc. unfold opens in Hk. cbn [In] in Hk. assert (R : (64 <= k <= 95)%N) by (decompose [or] Hk; subst; try lia; contradiction).
  unfold next_c1. assert (E : N.lor (N.land (e_cod s) 31) 64 = k) by (destruct Hc as [->| ->]; [apply c1_7bit|apply c1_8bit]; exact R).
  rewrite E. unfold after_intro, set_st, set_code. cbn [e_st e_buf e_clr e_typ e_cod].
  clear E Hc R. decompose [or] Hk; try contradiction; subst k; reflexivity.
Qed.
Lemma next_c1_plain k s : (64 <= k <= 95)%N -> ~ opens k -> e_cod s = k \/ e_cod s = (k + 64)%N -> next_c1 s = (true, mkE (e_st s) (e_buf s) (e_clr s) (e_typ s) k).
Proof.
  intros R Hk Hc. unfold next_c1. assert (E : N.lor (N.land (e_cod s) 31) 64 = k) by (destruct Hc as [->| ->]; [apply c1_7bit|apply c1_8bit]; exact R).
  rewrite E. unfold set_code. cbn [e_st e_buf e_clr e_typ e_cod]. unfold opens in Hk. cbn [In] in Hk.
  replace ((k =? 80) || (k =? 93) || (k =? 94) || (k =? 95))%N with false by (symmetry; lia).
  replace (k =? 91)%N with false by lia. replace (k =? 88)%N with false by lia. reflexivity.
Qed.

Lemma sil_intro e k ty cod d : opens k -> Forall scalar (intro e k) -> silents (u0 ty cod) (intro e k) d (after_intro k, 0, TC1, k).
Proof.
  intros Hk Hs. assert (R : (64 <= k <= 95)%N) by (unfold opens in Hk; cbn [In] in Hk; decompose [or] Hk; subst; try lia; contradiction).
  destruct e; cbn [intro] in *.
  - econstructor; [apply sil_esc|]. econstructor; [|constructor]. cbn [hd]. split; [exact (Forall_inv (Forall_inv_tail Hs))|]. intros buf clr r Hr. cbn [mk nest]. unfold estep. cbn [e_st].
    unfold next_esc, in_range, adv. replace ((64 <=? k) && (k <=? 95))%N with true by lia. rewrite (next_c1_opens k) by (auto; left; reflexivity).
    rewrite d8_scalar by (exact (Forall_inv (Forall_inv_tail Hs))). cbn [set_code e_st e_buf e_clr e_typ e_cod fst snd]. split; [reflexivity|]. unfold after_intro. destruct (k =? 91)%N, (k =? 88)%N; reflexivity.
  - econstructor; [|constructor]. split; [exact (Forall_inv Hs)|]. intros buf clr r Hr. cbn [mk nest u0]. unfold estep. cbn [e_st].
    unfold next_unknown, in_range, adv. replace (k + 64 =? 27)%N with false by lia. replace ((0 <=? k + 64) && (k + 64 <=? 31))%N with false by lia.
    replace ((128 <=? k + 64) && (k + 64 <=? 159))%N with true by lia. rewrite (next_c1_opens k) by (auto; right; reflexivity).
    rewrite d8_scalar by (exact (Forall_inv Hs)). cbn [set_code e_st e_buf e_clr e_typ e_cod fst snd]. split; [reflexivity|]. unfold after_intro. destruct (k =? 91)%N, (k =? 88)%N; reflexivity.
Qed.

Lemma silent_csi_p c ty cod d : (48 <= c <= 63)%N -> silent (SCsiP, 0, ty, cod) c d (SCsiP, 0, ty, cod).
Proof. intro H. step1. unfold next_csi_p, in_range, adv. replace ((48 <=? c) && (c <=? 63))%N with true by lia. rewrite d8_scalar by (unfold scalar; lia). split; reflexivity. Qed.
Lemma silent_csi_pi c ty cod d : (32 <= c <= 47)%N -> silent (SCsiP, 0, ty, cod) c d (SCsiF, 0, ty, cod).
Proof.
  intro H. step1. unfold next_csi_p, next_csi_f, in_range, adv. replace ((48 <=? c) && (c <=? 63))%N with false by lia. replace ((32 <=? c) && (c <=? 47))%N with true by lia.
  rewrite d8_scalar by (unfold scalar; lia). split; reflexivity.
Qed.
Lemma silent_csi_i c ty cod d : (32 <= c <= 47)%N -> silent (SCsiF, 0, ty, cod) c d (SCsiF, 0, ty, cod).
Proof. intro H. step1. unfold next_csi_f, in_range, adv. replace ((32 <=? c) && (c <=? 47))%N with true by lia. rewrite d8_scalar by (unfold scalar; lia). split; reflexivity. Qed.
Lemma final_csi st c ty cod : st = SCsiP \/ st = SCsiF -> (64 <= c <= 126)%N -> final (st, 0, ty, cod) c ty cod.
Proof.
  intros Hst H. split; [unfold scalar; lia|]. intros buf clr r. exists SCsiF, 0. split; [|reflexivity]. cbn [mk nest]. unfold estep. cbn [e_st].
  destruct Hst as [->| ->]; unfold next_csi_p, next_csi_f, in_range, adv; replace ((48 <=? c) && (c <=? 63))%N with false by lia; replace ((32 <=? c) && (c <=? 47))%N with false by lia;
    replace ((64 <=? c) && (c <=? 126))%N with true by lia; rewrite d8_scalar by (unfold scalar; lia); reflexivity.
Qed.

Lemma sils_same (st : est) n ty cod cs d (P : N -> Prop) : (forall c d, P c -> silent (st, n, ty, cod) c d (st, n, ty, cod)) -> Forall P cs -> silents (st, n, ty, cod) cs d (st, n, ty, cod).
Proof. intros HP H. induction H as [|c cs Hc H IH]; [constructor|]. econstructor; [apply HP; exact Hc|exact IH]. Qed.

Lemma sils_csi_i ty cod is d : Forall (fun c => 32 <= c <= 47)%N is -> exists st, (st = SCsiP \/ st = SCsiF) /\ silents (SCsiP, 0, ty, cod) is d (st, 0, ty, cod).
Proof.
  intro H. destruct H as [|c is Hc H]; [exists SCsiP; split; [auto|constructor]|]. exists SCsiF. split; [auto|]. econstructor; [apply silent_csi_pi; exact Hc|].
  apply (sils_same _ _ _ _ _ _ (fun c => 32 <= c <= 47)%N); [intros; apply silent_csi_i; assumption|exact H].
Qed.

(** control strings *)
Lemma silent_str c n ty cod d : scalar c -> strchar c -> silent (SCmd, n, ty, cod) c d (SCmd, n, ty, cod).
Proof.
  intros Hsc [H1 H2]. step1. unfold next_cmd_str, in_range, adv. replace (c =? 27)%N with false by lia. replace ((c =? 156) || (c =? 7))%N with false by lia.
  replace ((8 <=? c) && (c <=? 13) || (32 <=? c))%N with true by lia. rewrite d8_scalar by exact Hsc. split; reflexivity.
Qed.
Lemma silent_nest n ty cod : silent (SCmd, n, ty, cod) 27 93 (SCmd, S n, ty, cod).
Proof. step1. unfold next_cmd_str, adv. cbn [N.eqb Pos.eqb]. rewrite d8_scalar by (unfold scalar; lia). cbn [snd]. cbv zeta. fold (peekt r). rewrite Hr. split; reflexivity. Qed.
Lemma silent_unnest_st n ty cod : silent (SCmd, S n, ty, cod) 27 92 (SCmd, n, ty, cod).
Proof. step1. unfold next_cmd_str, adv. cbn [N.eqb Pos.eqb]. rewrite d8_scalar by (unfold scalar; lia). cbn [snd]. cbv zeta. fold (peekt r). rewrite Hr. cbn. rewrite Nat.sub_0_r. split; reflexivity. Qed.
Lemma silent_unnest_bel n ty cod d : silent (SCmd, S n, ty, cod) 7 d (SCmd, n, ty, cod).
Proof. step1. unfold next_cmd_str, adv. cbn [N.eqb Pos.eqb orb andb Nat.ltb Nat.leb]. rewrite d8_scalar by (unfold scalar; lia). cbn. rewrite Nat.sub_0_r. split; reflexivity. Qed.
Lemma silent_end ty cod d : d <> 93%N -> silent (SCmd, 0, ty, cod) 27 d (SEscSt, 0, ty, cod).
Proof.
  intro Hd. step1. unfold next_cmd_str, adv. cbn [N.eqb Pos.eqb]. rewrite d8_scalar by (unfold scalar; lia). cbn [snd]. cbv zeta. fold (peekt r). rewrite Hr.
  replace (d =? 93)%N with false by lia. rewrite andb_false_r. split; reflexivity.
Qed.
Lemma final_st ty cod : final (SEscSt, 0, ty, cod) 92 ty cod.
Proof. split; [unfold scalar; lia|]. intros buf clr r. exists SEscSt, 0. split; [|reflexivity]. cbn [mk nest]. unfold estep. cbn [e_st]. unfold next_esc_st, adv. cbn [N.eqb Pos.eqb]. rewrite d8_scalar by (unfold scalar; lia). reflexivity. Qed.
Lemma final_cmd c ty cod : c = 7%N \/ c = 156%N -> final (SCmd, 0, ty, cod) c ty cod.
Proof.
  intro H. assert (Hs : scalar c) by (unfold scalar; lia). split; [exact Hs|]. intros buf clr r. exists SCmd, 0. split; [|reflexivity]. cbn [mk nest]. unfold estep. cbn [e_st]. unfold next_cmd_str, adv.
  rewrite d8_scalar by exact Hs. destruct H as [->| ->]; reflexivity.
Qed.

Lemma sils_body b : sbody b -> Forall scalar b -> forall n ty cod d, silents (SCmd, n, ty, cod) b d (SCmd, n, ty, cod).
Proof.
  induction 1 as [|c r Hc H IH|b r Hb IHb H IH|b r Hb IHb H IH]; intros Hs n ty cod d.
  - constructor.
  - inversion_clear Hs as [|? ? Hsc Hs']. econstructor; [apply silent_str; assumption|exact (IH Hs' n ty cod d)].
  - apply Forall_inv_tail in Hs. inversion_clear Hs as [|? ? H93 Hs']. apply Forall_app in Hs' as [Hsb Hs']. apply Forall_inv_tail in Hs' as Hsr.
    econstructor; [apply silent_nest|]. econstructor; [apply silent_str; [exact H93|unfold strchar; lia]|].
    eapply silents_app; [apply (IHb Hsb)|]. econstructor; [apply silent_unnest_bel|apply (IH Hsr)].
  - apply Forall_inv_tail in Hs. inversion_clear Hs as [|? ? H93 Hs']. apply Forall_app in Hs' as [Hsb Hs']. apply Forall_inv_tail in Hs'. inversion_clear Hs' as [|? ? H92 Hsr].
    econstructor; [apply silent_nest|]. econstructor; [apply silent_str; [exact H93|unfold strchar; lia]|].
    eapply silents_app; [apply (IHb Hsb)|]. cbn [hd]. econstructor; [apply silent_unnest_st|]. econstructor; [apply silent_str; [exact H92|unfold strchar; lia]|apply (IH Hsr)].
Qed.

Lemma silent_chs c ty cod d : scalar c -> c <> 27%N -> c <> 156%N -> silent (SChs, 0, ty, cod) c d (SChs, 0, ty, cod).
Proof. intros Hs H1 H2. step1. unfold next_char_str, adv. replace (c =? 27)%N with false by lia. replace (c =? 156)%N with false by lia. rewrite d8_scalar by exact Hs. split; reflexivity. Qed.
Lemma silent_chs_esc ty cod d : silent (SChs, 0, ty, cod) 27 d (SEscSt, 0, ty, cod).
Proof. step1. unfold next_char_str, adv. rewrite d8_scalar by (unfold scalar; lia). split; reflexivity. Qed.
Lemma final_chs ty cod : final (SChs, 0, ty, cod) 156 ty cod.
Proof. split; [unfold scalar; lia|]. intros buf clr r. exists SChs, 0. split; [|reflexivity]. cbn [mk nest]. unfold estep. cbn [e_st]. unfold next_char_str, adv. rewrite d8_scalar by (unfold scalar; lia). reflexivity. Qed.

Lemma final_c0 c ty cod : scalar c -> (c < 32 /\ c <> 27)%N -> final (u0 ty cod) c TC0 c.
Proof.
  intros Hs H. split; [exact Hs|]. intros buf clr r. exists SUnk, 0. split; [|reflexivity]. cbn [mk nest u0]. unfold estep. cbn [e_st]. unfold next_unknown, in_range, adv. rewrite d8_scalar by exact Hs.
  replace (c =? 27)%N with false by lia. replace ((0 <=? c) && (c <=? 31))%N with true by lia. reflexivity.
Qed.
Lemma final_c1_esc k ty cod : scalar k -> (64 <= k <= 95)%N -> ~ opens k -> final (SEsc, 0, ty, cod) k TC1 k.
Proof.
  intros Hs H Ho. split; [exact Hs|]. intros buf clr r. exists SEsc, 0. split; [|reflexivity]. cbn [mk nest]. unfold estep. cbn [e_st]. unfold next_esc, in_range, adv. rewrite d8_scalar by exact Hs.
  replace ((64 <=? k) && (k <=? 95))%N with true by lia. rewrite (next_c1_plain k) by (auto; left; reflexivity). reflexivity.
Qed.
Lemma final_c1_8 k ty cod : scalar (k + 64)%N -> (64 <= k <= 95)%N -> ~ opens k -> final (u0 ty cod) (k + 64)%N TC1 k.
Proof.
  intros Hs H Ho. split; [exact Hs|]. intros buf clr r. exists SUnk, 0. split; [|reflexivity]. cbn [mk nest u0]. unfold estep. cbn [e_st]. unfold next_unknown, in_range, adv. rewrite d8_scalar by exact Hs.
  replace (k + 64 =? 27)%N with false by lia. replace ((0 <=? k + 64) && (k + 64 <=? 31))%N with false by lia. replace ((128 <=? k + 64) && (k + 64 <=? 159))%N with true by lia.
  rewrite (next_c1_plain k) by (auto; right; reflexivity). reflexivity.
Qed.
Lemma final_icf k ty cod : scalar k -> (96 <= k <= 127)%N -> final (SEsc, 0, ty, cod) k TIcf k.
Proof.
  intros Hs H. split; [exact Hs|]. intros buf clr r. exists SEsc, 0. split; [|reflexivity]. cbn [mk nest]. unfold estep. cbn [e_st]. unfold next_esc, in_range, adv. rewrite d8_scalar by exact Hs.
  replace ((64 <=? k) && (k <=? 95))%N with false by lia. replace ((96 <=? k) && (k <=? 127))%N with true by lia. reflexivity.
Qed.

(** every control function: silent up to its last character, which ends it *)
Lemma token_shape k ty cod : kok k -> (match k with KText _ => False | _ => True end) ->
  exists cs c y, ktext k = cs ++ [c] /\ silents (u0 ty cod) cs c y /\ final y c (fst (kview k)) (snd (kview k)).
Proof.
  intros [Hs Hk] Hnt. destruct k as [cs|c|e k|k|e ps is f|e k b t|e b t]; [contradiction| | | | | |]; cbn [ktext kview fst snd] in *.
  - exists [], c. eexists. split; [reflexivity|]. split; [constructor|]. apply final_c0; [exact (Forall_inv Hs)|exact Hk].
  - destruct Hk as [R Ho]. destruct e; cbn [intro] in *.
    + exists [27%N], k. eexists. split; [reflexivity|]. split; [econstructor; [apply sil_esc|constructor]|]. apply final_c1_esc; auto. exact (Forall_inv (Forall_inv_tail Hs)).
    + exists [], (k + 64)%N. eexists. split; [reflexivity|]. split; [constructor|]. apply final_c1_8; auto. exact (Forall_inv Hs).
  - exists [27%N], k. eexists. split; [reflexivity|]. split; [econstructor; [apply sil_esc|constructor]|]. apply final_icf; auto. exact (Forall_inv (Forall_inv_tail Hs)).
  - destruct Hk as (Hp & Hi & Hf). destruct (sils_csi_i TC1 91%N is f Hi) as (st & Hst & Hsi).
    exists (intro e 91 ++ ps ++ is), f, (st, 0, TC1, 91%N). split; [rewrite <- !app_assoc; reflexivity|]. split; [|apply final_csi; assumption].
    apply Forall_app in Hs as [Hsi0 _]. eapply silents_app; [apply sil_intro; [unfold opens; cbn; auto 10|exact Hsi0]|]. change (after_intro 91) with SCsiP.
    eapply silents_app; [|exact Hsi]. apply (sils_same _ _ _ _ _ _ (fun c => 48 <= c <= 63)%N); [intros; apply silent_csi_p; assumption|exact Hp].
  - destruct Hk as (Hk & Hb & Ht). assert (Ho : opens k) by (unfold opens; cbn [In] in *; decompose [or] Hk; auto 10).
    assert (Ea : after_intro k = SCmd) by (cbn [In] in Hk; decompose [or] Hk; subst; try contradiction; reflexivity).
    apply Forall_app in Hs as [Hs0 Hs]. apply Forall_app in Hs as [Hsb Hst].
    assert (Hin : forall d, silents (u0 ty cod) (intro e k ++ b) d (SCmd, 0, TC1, k)).
    { intro d. eapply silents_app; [apply sil_intro; [exact Ho|exact Hs0]|]. rewrite Ea. apply sils_body; assumption. }
    cbn [In] in Ht. destruct Ht as [<-|[<-|[<-|[]]]].
    + exists (intro e k ++ b), 7%N, (SCmd, 0, TC1, k). split; [rewrite <- app_assoc; reflexivity|]. split; [apply Hin|apply final_cmd; auto].
    + exists (intro e k ++ b), 156%N, (SCmd, 0, TC1, k). split; [rewrite <- app_assoc; reflexivity|]. split; [apply Hin|apply final_cmd; auto].
    + exists ((intro e k ++ b) ++ [27%N]), 92%N, (SEscSt, 0, TC1, k). split; [rewrite <- !app_assoc; reflexivity|]. split; [|apply final_st].
      eapply silents_app; [apply Hin|]. econstructor; [apply silent_end; cbn; lia|constructor].
  - destruct Hk as (Hb & Ht). apply Forall_app in Hs as [Hs0 Hs]. apply Forall_app in Hs as [Hsb Hst].
    assert (Hin : forall d, silents (u0 ty cod) (intro e 88 ++ b) d (SChs, 0, TC1, 88%N)).
    { intro d. eapply silents_app; [apply sil_intro; [unfold opens; cbn; auto 10|exact Hs0]|]. change (after_intro 88) with SChs.
      apply (sils_same _ _ _ _ _ _ (fun c => scalar c /\ c <> 27 /\ c <> 156)%N); [intros c d' (A & B & C); apply silent_chs; assumption|].
      clear -Hb Hsb. induction b as [|c b IH]; [constructor|]. inversion_clear Hb as [|? ? Hc Hb']; inversion_clear Hsb as [|? ? Hsc Hsb']. constructor; [tauto|apply IH; assumption]. }
    cbn [In] in Ht. destruct Ht as [<-|[<-|[]]].
    + exists (intro e 88 ++ b), 156%N, (SChs, 0, TC1, 88%N). split; [rewrite <- app_assoc; reflexivity|]. split; [apply Hin|apply final_chs].
    + exists ((intro e 88 ++ b) ++ [27%N]), 92%N, (SEscSt, 0, TC1, 88%N). split; [rewrite <- !app_assoc; reflexivity|]. split; [|apply final_st].
      eapply silents_app; [apply Hin|]. econstructor; [apply silent_chs_esc|constructor].
Qed.

Lemma bs_len cs : length cs <= length (bs cs).
Proof.
  induction cs as [|c cs IH]; [cbn; lia|]. rewrite bs_cons, app_length. cbn [length].
  assert (1 <= length (utf8 c)) by (unfold utf8; repeat match goal with |- context[if ?b then _ else _] => destruct b end; cbn; lia). lia.
Qed.

(** what emitting a control function does, in any state with a cleared buffer *)
Lemma enext_token k ty cod buf r : kok k -> (match k with KText _ => False | _ => True end) ->
  exists ty' cod', enext (mkE SUnk buf true ty cod) (bs (ktext k) ++ r)
    = Some (Some (fst (kview k), snd (kview k), bs (ktext k)), mkE SUnk (bs (ktext k)) true ty' cod', r).
Proof.
  intros Hk Hn. destruct (token_shape k ty cod Hk Hn) as (cs & c & y & E & Hs & Hf). rewrite E, bs_app. cbn [bs bytes_of flat_map]. rewrite app_nil_r, <- app_assoc.
  unfold enext. assert (exists f, 2 * length (bs cs ++ utf8 c ++ r) + 2 = length cs + S f) as [f Ef].
  { exists (2 * length (bs cs ++ utf8 c ++ r) + 1 - length cs). rewrite app_length. pose proof (bs_len cs). lia. }
  rewrite Ef. change (mkE SUnk buf true ty cod) with (mk (u0 ty cod) buf true). change 0 with (nest (u0 ty cod)) at 1.
  rewrite (nloop_silents _ _ _ _ Hs) by (apply peek_utf8; exact (proj1 Hf)).
  exists (fst (kview k)), (snd (kview k)).
  destruct cs as [|c0 cs].
  - inversion Hs; subst. destruct (nloop_final _ c _ _ f buf true (bs [] ++ utf8 c ++ r) r Hf) as (st & En & _). exact En.
  - destruct (nloop_final _ c _ _ f ([] ++ bs (c0 :: cs)) false (bs (c0 :: cs) ++ utf8 c ++ r) r Hf) as (st & En & _). exact En.
Qed.

Lemma nloop_text cs : Forall scalar cs -> Forall (fun c => 32 <= c)%N cs -> forall fuel buf clr ty cod n r start, (peekt r < 32)%N ->
  exists ty', nloop (length cs + S fuel) (mkE SChar buf clr ty cod) n (bs cs ++ r) start start
  = Some (Some (ty', cod, between start r), mkE SUnk buf true ty' cod, r) /\ (ty = TChars -> ty' = TChars).
Proof.
  intros Hs H. induction Hs as [|c cs Hc Hs IH]; intros fuel buf clr ty cod n r start Hr.
  - cbn [length Nat.add bs bytes_of flat_map app nloop e_st is_char]. fold (peekt r). destruct (peekt r =? 0)%N eqn:E0; [exists ty; split; [reflexivity|auto]|].
    unfold estep, next_char, in_range. cbn [e_st]. replace ((0 <=? peekt r) && (peekt r <=? 31))%N with true by lia. cbn. exists TChars. split; [reflexivity|auto].
  - inversion_clear H as [|? ? H32 H']. cbn [length Nat.add]. rewrite bs_cons, <- app_assoc. cbn [nloop]. rewrite peek_utf8 by exact Hc. replace (c =? 0)%N with false by lia.
    unfold estep, next_char, in_range, adv. cbn [e_st]. replace ((0 <=? c) && (c <=? 31))%N with false by lia. rewrite d8_scalar by exact Hc. unfold save. cbn [is_char e_st snd].
    exact (IH H' fuel buf clr ty cod n r start Hr).
Qed.

Lemma enext_text cs ty cod buf r : kok (KText cs) -> (peekt r < 32)%N ->
  enext (mkE SUnk buf true ty cod) (bs cs ++ r) = Some (Some (TChars, cod, bs cs), mkE SUnk buf true TChars cod, r).
Proof.
  intros (Hs & H32 & c & x & -> & Hc1) Hr. cbn [ktext] in Hs. inversion_clear Hs as [|? ? Hc Hs']. inversion_clear H32 as [|? ? H32c H32'].
  unfold enext. set (start := bs (c :: x) ++ r). assert (exists f, 2 * length start + 2 = S (length x + S f)) as [f ->].
  { exists (2 * length start - length x). unfold start. rewrite app_length. pose proof (bs_len (c :: x)). cbn [length] in H. lia. }
  unfold start at 1. rewrite bs_cons, <- app_assoc. cbn [nloop]. rewrite peek_utf8 by exact Hc. replace (c =? 0)%N with false by lia.
  unfold estep, next_unknown, in_range, adv. cbn [e_st]. replace (c =? 27)%N with false by lia. replace ((0 <=? c) && (c <=? 31))%N with false by lia.
  replace ((128 <=? c) && (c <=? 159))%N with false by lia. rewrite d8_scalar by exact Hc. unfold save. cbn [is_char e_st e_buf e_clr e_typ e_cod set_st set_code snd].
  destruct (nloop_text x Hs' H32' f buf true TChars cod 0 r start Hr) as (ty' & E & Ht). rewrite (Ht eq_refl) in E.
  etransitivity; [exact E|]. unfold start. rewrite between_app. reflexivity.
Qed.

Definition kbytes (ks : list token) : list N := bs (flat_map ktext ks).
Lemma kbytes_cons k ks : kbytes (k :: ks) = bs (ktext k) ++ kbytes ks.
Proof. unfold kbytes. cbn [flat_map]. apply bs_app. Qed.
Definition short (k : token) : Prop := (N.of_nat (length (bytes_of (ktext k))) < 65536)%N.

Lemma ktext_ne k : kok k -> exists c x, ktext k = c :: x /\ scalar c.
Proof.
  intros [Hs Hk]. assert (exists c x, ktext k = c :: x) as (c & x & E).
  { destruct k as [cs|c|e k|k|e ps is f|e k b t|e b t]; cbn [ktext]; try (destruct e; cbn [intro app]); eauto. destruct Hk as (_ & c & x & -> & _). eauto. }
  exists c, x. split; [exact E|]. rewrite E in Hs. exact (Forall_inv Hs).
Qed.

Lemma peek_kbytes k ks : kok k -> exists c x, ktext k = c :: x /\ peekt (kbytes (k :: ks)) = c.
Proof. intro Hk. destruct (ktext_ne k Hk) as (c & x & E & Hc). exists c, x. split; [exact E|]. rewrite kbytes_cons, E, bs_cons, <- app_assoc. apply peek_utf8. exact Hc. Qed.

Lemma short_len k : kok k -> short k -> (len16 (bs (ktext k)) =? 0)%N = false /\ seen (bs (ktext k)) = bs (ktext k).
Proof.
  intros Hk Hs. destruct (ktext_ne k Hk) as (c & x & E & Hc). unfold short in Hs. fold (bs (ktext k)) in Hs. pose proof (bs_len (ktext k)) as Hl. rewrite E in Hl at 1. cbn [length] in Hl.
  unfold seen, len16. rewrite N.mod_small by exact Hs. split; [apply N.eqb_neq; lia|]. rewrite Nat2N.id. apply firstn_all.
Qed.

(** the next code of a token stream *)
Lemma enext_any k ks ty cod buf : kok k -> Forall kok ks -> separated (k :: ks) ->
  exists cod0 ty' cod' buf', enext (mkE SUnk buf true ty cod) (kbytes (k :: ks))
    = Some (Some (fst (kview k), cod0, bs (ktext k)), mkE SUnk buf' true ty' cod', kbytes ks) /\ cview (fst (kview k), cod0, bs (ktext k)) = kcode k.
Proof.
  intros Hk Hks Hsep. rewrite kbytes_cons. destruct k as [cs|c|e k|k|e ps is f|e k b t|e b t].
  - cbn [kview fst ktext]. exists cod, TChars, cod, buf. split; [|reflexivity]. apply enext_text; [exact Hk|].
    destruct ks as [|k2 ks]; [cbn; lia|]. cbn [separated] in Hsep. destruct Hsep as [(c & x & E & Hc) _].
    destruct (peek_kbytes k2 ks (Forall_inv Hks)) as (c' & x' & E' & Hp). rewrite Hp. rewrite E in E'. injection E' as <- _. exact Hc.
  - destruct (enext_token (KC0 c) ty cod buf (kbytes ks) Hk I) as (ty' & cod' & E). exists c, ty', cod'. eexists. split; [exact E|reflexivity].
  - destruct (enext_token (KC1 e k) ty cod buf (kbytes ks) Hk I) as (ty' & cod' & E). exists k, ty', cod'. eexists. split; [exact E|reflexivity].
  - destruct (enext_token (KIcf k) ty cod buf (kbytes ks) Hk I) as (ty' & cod' & E). exists k, ty', cod'. eexists. split; [exact E|reflexivity].
  - destruct (enext_token (KCsi e ps is f) ty cod buf (kbytes ks) Hk I) as (ty' & cod' & E). exists 91%N, ty', cod'. eexists. split; [exact E|reflexivity].
  - destruct (enext_token (KStr e k b t) ty cod buf (kbytes ks) Hk I) as (ty' & cod' & E). exists k, ty', cod'. eexists. split; [exact E|reflexivity].
  - destruct (enext_token (KSos e b t) ty cod buf (kbytes ks) Hk I) as (ty' & cod' & E). exists 88%N, ty', cod'. eexists. split; [exact E|reflexivity].
Qed.

Lemma separated_tail k ks : separated (k :: ks) -> separated ks.
Proof. destruct k; cbn [separated]; auto. destruct ks as [|k2 ks]; [auto|]. intros [_ H]. exact H. Qed.

Lemma kbytes_len ks : Forall kok ks -> length ks <= length (kbytes ks).
Proof.
  induction 1 as [|k ks Hk H IH]; [cbn; lia|]. rewrite kbytes_cons, app_length. destruct (ktext_ne k Hk) as (c & x & E & _). pose proof (bs_len (ktext k)) as Hl. rewrite E in Hl at 1. cbn [length] in *. lia.
Qed.

Lemma codes_tokens ks : Forall kok ks -> Forall short ks -> separated ks -> forall fuel buf ty cod, length ks < fuel ->
  exists l s, codes fuel (mkE SUnk buf true ty cod) (kbytes ks) = Some (l, s) /\ map cview l = map kcode ks /\ e_st s = SUnk /\ e_clr s = true.
Proof.
  intros Hk. induction Hk as [|k ks Hk Hks IH]; intros Hsh Hsep fuel buf ty cod Hf; (destruct fuel as [|fuel]; [lia|]).
  - exists [], (mkE SUnk buf true ty cod). split; [reflexivity|]. split; [reflexivity|]. split; reflexivity.
  - inversion_clear Hsh as [|? ? Hsk Hsh']. destruct (enext_any k ks ty cod buf Hk Hks Hsep) as (cod0 & ty' & cod' & buf' & E & Hv).
    destruct (IH Hsh' (separated_tail k ks Hsep) fuel buf' ty' cod' ltac:(cbn [length] in Hf; lia)) as (l & s & E2 & Hm & Hst).
    cbn [codes]. rewrite E. destruct (short_len k Hk Hsk) as [-> ->]. rewrite E2. eexists; exists s. split; [reflexivity|]. split; [|exact Hst]. cbn [map]. rewrite Hv, Hm. reflexivity.
Qed.

Theorem parse_tokens ks ty cod : Forall kok ks -> Forall short ks -> separated ks ->
  exists l s, parse (fresh ty cod) (bytes_of (flat_map ktext ks)) = Some (l, s) /\ map cview l = map kcode ks /\ e_st s = SUnk /\ e_clr s = true.
Proof. intros Hk Hs Hp. apply codes_tokens; auto. apply kbytes_len in Hk. unfold kbytes, bs in Hk. lia. Qed.
