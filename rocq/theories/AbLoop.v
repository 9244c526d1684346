(** Proofs about the expansion of a whole path. *)
From Verif Require Import Base AbModel AbSpec AbProofs.
Open Scope N_scope.

Lemma span_all p a b : Forall (fun c => p c = true) a -> match b with [] => True | c :: _ => p c = false end -> span p (a ++ b) = (a, b).
Proof. induction 1 as [|c a H _ IH]; intro Hb; cbn [app span]; [destruct b as [|c b]; [reflexivity|cbn [span]; rewrite Hb; reflexivity]|]. rewrite H, (IH Hb). reflexivity. Qed.
Definition rest_ok (l : list comp) : Prop := Forall (fun c : comp => one_sep (fst c) /\ good_name (snd c)) l.
Lemma rest_head l : rest_ok l -> match written l with [] => l = [] | c :: _ => is_sep c = true end.
Proof. destruct 1 as [|[s n] l [(c & Hs & H) _] _]; [reflexivity|]. cbn [fst] in Hs. subst s. cbn. exact H. Qed.
Lemma name_chars n : good_name n -> Forall (fun c => negb (is_sep c) = true) n.
Proof. intros (_ & H & _). apply (Forall_impl _ (P := good_char)); [|exact H]. intros c (A & _). change (is_sep c) with (separator c). rewrite A. reflexivity. Qed.
Lemma good_rest_path s n l : good_path ((s, n) :: l) -> rest_ok l.
Proof. intros (_ & _ & H). exact H. Qed.
Lemma rest_path l : rest_ok l -> l <> [] -> good_path l.
Proof. destruct 1 as [|[s n] l [A B] H]; [congruence|]. intros _. split; [right; exact A|]. split; [exact B|exact H]. Qed.

Section L.
Variable ls : text -> list entry.
Variable same : N -> N -> bool.
Variable cmp : N -> N -> bool.
Hypothesis Hg : good_fs ls same.
Hypothesis Hc : good_chars same cmp.
Lemma chosen_expand dir n e : good_name n -> chosen ls same dir n e -> expand_name same cmp (found ls same dir n) n = Some (e_name e, true).
Proof.
  intros Hn [Hi Ho]. destruct Hg as [H1 H2]. destruct (candidates ls same dir n) as [|e' l] eqn:E; [destruct Hi|]. destruct Ho as [Ho|Ho].
  - assert (e = e') by (apply (H2 dir n e e' l); assumption). subst e'. apply (expand_first ls same cmp H1 Hc dir n e l Hn E). left. exact Ho.
  - injection Ho as -> ->. apply (expand_first ls same cmp H1 Hc dir n e [] Hn E). right. reflexivity.
Qed.
Lemma loop_step fuel s n l out k u : (s = [] \/ one_sep s) -> good_name n -> rest_ok l ->
  loop ls same cmp (S fuel) (written ((s, n) :: l)) out k u =
  match expand_name same cmp (found ls same (out ++ s) n) n with
  | None => None
  | Some (t, true) => loop ls same cmp fuel (written l) ((out ++ s) ++ t) (k + length s + length n) true
  | Some (t, false) => Some ((out ++ s) ++ t, (k + length s + length n)%nat, false)
  end.
Proof.
  intros Hs Hn Hl. cbn [loop]. change (written ((s, n) :: l)) with ((s ++ n) ++ written l). assert (Hne : n <> []) by apply Hn.
  destruct ((s ++ n) ++ written l) as [|c0 l0] eqn:E0; [exfalso; apply app_eq_nil in E0; destruct E0 as [E0 _]; apply app_eq_nil in E0; tauto|]. rewrite <- E0. clear c0 l0 E0. rewrite <- app_assoc.
  assert (A : span is_sep (s ++ n ++ written l) = (s, n ++ written l)). { apply span_all; [destruct Hs as [->|(c & -> & H)]; [apply Forall_nil|apply Forall_cons; [exact H|apply Forall_nil]]|]. destruct n as [|c n]; [congruence|]. pose proof (name_chars _ Hn) as X. inversion X; subst. cbn [app]. destruct (is_sep c); [discriminate|reflexivity]. }
  assert (B : span (fun c => negb (is_sep c)) (n ++ written l) = (n, written l)). { apply span_all; [exact (name_chars _ Hn)|]. pose proof (rest_head l Hl) as X. destruct (written l); [exact Logic.I|rewrite X; reflexivity]. }
  rewrite A, B. destruct n as [|c n]; [congruence|]. set (nm := c :: n) in *. replace (firstn 1 s) with s by (destruct Hs as [->|(d & -> & _)]; reflexivity). reflexivity.
Qed.
Lemma written_cons s n l : length (written ((s, n) :: l)) = (length s + length n + length (written l))%nat.
Proof. unfold written. cbn [map concat fst snd]. rewrite !app_length. lia. Qed.
Lemma name_pos n : good_name n -> (0 < length n)%nat.
Proof. intros (H & _). destruct n; [congruence|cbn; lia]. Qed.
Lemma loop_sure base l out : sure ls same base l out -> good_path l \/ l = [] -> forall fuel k u, (length (written l) < fuel)%nat ->
  loop ls same cmp fuel (written l) base k u = Some (out, (k + length (written l))%nat, match l with [] => u | _ => true end).
Proof.
  induction 1 as [base|base s n l e out Hch Hs IH]; intros Hp fuel k u Hf; [destruct fuel; [cbn in Hf; lia|]; cbn; do 3 f_equal; lia|]. destruct Hp as [(P1 & P2 & P3)|P]; [|discriminate]. destruct fuel as [|fuel]; [lia|]. rewrite loop_step by assumption. rewrite (chosen_expand _ _ e P2 Hch).
  rewrite written_cons in *. pose proof (name_pos n P2). rewrite <- app_assoc. rewrite IH; [destruct l; do 3 f_equal; lia| |lia]. destruct l as [|c l']; [right; reflexivity|left; apply rest_path; [exact P3|discriminate]].
Qed.
Lemma loop_lost base l : lost ls same base l -> good_path l -> forall fuel k u, (length (written l) < fuel)%nat -> loop ls same cmp fuel (written l) base k u = None.
Proof.
  induction 1 as [base s n l Hno|base s n l e Hch Hs IH]; intros (P1 & P2 & P3) fuel k u Hf; (destruct fuel as [|fuel]; [lia|]); rewrite loop_step by assumption.
  - destruct Hg as [H1 _]. rewrite (expand_none ls same cmp H1 Hc _ _ P2 Hno). reflexivity.
  - rewrite (chosen_expand _ _ e P2 Hch). rewrite written_cons in Hf. pose proof (name_pos n P2). rewrite <- app_assoc. apply IH; [|lia]. apply rest_path; [exact P3|]. intros ->. inversion Hs.
Qed.
Lemma loop_several base l dir n rest : several ls same base l dir n rest -> good_path l -> forall fuel k u, (length (written l) < fuel)%nat ->
  exists t m, loop ls same cmp fuel (written l) base k u = Some (dir ++ t, (k + m)%nat, false) /\ extended ls same cmp dir n t /\ (exists a, written l = a ++ written rest /\ m = length a) /\ good_name n.
Proof.
  induction 1 as [base s n l Htwo Hno|base s n l e dir n' rest Hch Hs IH]; intros (P1 & P2 & P3) fuel k u Hf; (destruct fuel as [|fuel]; [lia|]); rewrite loop_step by assumption.
  - destruct (candidates ls same (base ++ s) n) as [|e1 [|e2 r]] eqn:E; cbn [length] in Htwo; try lia. destruct Hg as [H1 _]. destruct (expand_several ls same cmp H1 Hc _ n e1 e2 r P2 E) as (t & T1 & T2); [apply Hno; left; reflexivity|]. rewrite T1. exists t, (length s + length n)%nat. split; [do 3 f_equal; lia|]. split; [exact T2|]. split; [|exact P2].
    exists (s ++ n). split; [reflexivity|rewrite app_length; lia].
  - rewrite (chosen_expand _ _ e P2 Hch). rewrite written_cons in Hf. pose proof (name_pos n P2). rewrite <- app_assoc. destruct (IH (rest_path l P3 ltac:(intros ->; inversion Hs)) fuel (k + length s + length n)%nat true ltac:(lia)) as (t & m & A & B & (a & C1 & C2) & D). exists t, (length s + length n + m)%nat. split; [rewrite A; do 3 f_equal; lia|]. split; [exact B|]. split; [|exact D].
    exists ((s ++ n) ++ a). split; [unfold written in *; cbn [map concat fst snd]; rewrite C1; apply app_assoc|rewrite !app_length; lia].
Qed.
(** ** already expanded *)
Lemma prefix_name n' : forall n c X w', is_prefix (n' ++ w') (n ++ c :: X) = true -> Forall (fun c => is_sep c = false) n' -> is_sep c = true -> (length n <= length n')%nat -> n' = n /\ is_prefix w' (c :: X) = true.
Proof.
  induction n' as [|x n' IH]; intros [|y n] c X w' H Hf Hs Hl; cbn [length] in Hl; try lia; [split; [reflexivity|exact H]| |].
  - cbn [app is_prefix] in H. apply andb_prop in H. destruct H as [H _]. apply N.eqb_eq in H. subst x. inversion Hf; congruence.
  - cbn [app is_prefix] in H. apply andb_prop in H. destruct H as [H1 H2]. apply N.eqb_eq in H1. subst x. inversion Hf; subst. destruct (IH n c X w' H2) as [-> A]; [assumption|assumption|lia|]. split; [reflexivity|exact A].
Qed.
Lemma prefix_app a b c : is_prefix (a ++ b) (a ++ c) = is_prefix b c.
Proof. induction a as [|x a IH]; [reflexivity|]. cbn [app is_prefix]. rewrite N.eqb_refl. exact IH. Qed.
Lemma prefix_self a b : is_prefix a (a ++ b) = true.
Proof. rewrite <- (app_nil_r a) at 1. rewrite prefix_app. reflexivity. Qed.
Lemma chosen_name dir n e : chosen ls same dir n e -> Forall (fun c => is_sep c = false) (e_name e) /\ (length n <= length (e_name e))%nat /\ e_name e <> [].
Proof. intros [Hi _]. destruct Hg as [H1 _]. destruct (candidate_good ls same H1 dir n e Hi) as [(A & B & _) C]. unfold starts in C. apply andb_prop in C. split; [exact B|]. split; [lia|exact A]. Qed.
Lemma sure_out base l out : sure ls same base l out -> exists w, out = base ++ w /\ (good_path l \/ l = [] -> forall c X, is_sep c = true -> is_prefix w (written l ++ c :: X) = true -> w = written l) /\ (l <> [] -> is_sep (last out 0) = false).
Proof.
  induction 1 as [base|base s n l e out Hch Hs IH]; [exists []; rewrite app_nil_r; split; [reflexivity|]; split; [reflexivity|congruence]|]. destruct IH as (w & -> & IH & IL). destruct (chosen_name _ _ _ Hch) as (A & B & C). exists (s ++ e_name e ++ w). split; [rewrite <- !app_assoc; reflexivity|]. split.
  - intros [(P1 & P2 & P3)|P] c X Hsep H; [|discriminate]. change (written ((s, n) :: l)) with ((s ++ n) ++ written l) in *. rewrite <- !app_assoc in *. rewrite prefix_app in H. f_equal.
    pose proof (rest_head l P3) as R. destruct (written l) as [|d W] eqn:EW.
    + cbn [app] in H. destruct (prefix_name _ _ _ _ _ H A Hsep B) as [E F]. rewrite E. f_equal. subst l. apply (IH (or_intror eq_refl) c X Hsep). exact F.
    + cbn [app] in H. destruct (prefix_name _ _ _ _ _ H A R B) as [E F]. rewrite E. f_equal. apply (IH ltac:(destruct l; [right; reflexivity|left; apply rest_path; [exact P3|discriminate]]) c X Hsep). exact F.
  - intros _. destruct l as [|c l]; [|apply IL; discriminate]. assert (W0 : w = []). { inversion Hs as [b0 H1 H2 Hb|]. apply (f_equal (@length N)) in Hb. rewrite !app_length in Hb. destruct w; [reflexivity|cbn in Hb; lia]. }
    rewrite W0, app_nil_r, !app_assoc.
    destruct (exists_last C) as (nm & z & Ez). rewrite Ez, app_assoc, last_last. rewrite Ez in A. apply Forall_app in A. destruct A as [_ A]. inversion A; assumption.
Qed.
End L.
