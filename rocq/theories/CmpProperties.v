(** C25: string comparison computes the longest common prefix. *)
From Verif Require Import Base UtfModel UtfSpec UtfProofs TokProofs CmpModel CmpSpec CmpProofs.

Definition enc_of (wide : bool) : N -> list N := if wide then utf16 else utf8.
Definition encode (wide : bool) (vs : list N) : list N := flat_map (enc_of wide) vs.

Lemma read_wf (wide : bool) mem e p vs : Forall scalar vs -> text_at mem e p (encode wide vs) ->
  exists p', (if wide then next16 mem e else next8 mem e) p = Some (match vs with [] => 0%N | v :: _ => v end, p') /\
             p' = p + match vs with [] => 0 | v :: _ => length (enc_of wide v) end.
Proof.
  intros Hs Ht. unfold encode, enc_of in *. destruct wide.
  - assert (Hu : Forall (fun u => u < 65536)%N (flat_map utf16 vs)).
    { clear - Hs. induction Hs as [|v vs Hv Hvs IH]; [constructor|]. cbn [flat_map]. apply Forall_app. split; [|exact IH].
      apply scalar_bound in Hv. unfold utf16. destruct (N.ltb_spec v 65536); repeat (constructor; [lia|]); constructor. }
    destruct vs as [|v vs].
    + rewrite (next16_eq _ _ _ _ 0%N [] Hu Ht eq_refl). eexists; split; [reflexivity|cbn; lia].
    + rewrite (next16_eq _ _ _ _ v (flat_map utf16 vs) Hu Ht).
      * eexists; split; [reflexivity|]. cbn [flat_map]. rewrite app_length. lia.
      * apply dl16_utf16. exact (Forall_inv Hs).
  - destruct vs as [|v vs].
    + rewrite (next8_eq _ _ _ _ 0%N [] Ht eq_refl). eexists; split; [reflexivity|cbn; lia].
    + rewrite (next8_eq _ _ _ _ v (flat_map utf8 vs) Ht).
      * eexists; split; [reflexivity|]. cbn [flat_map]. rewrite app_length. lia.
      * apply dl8_utf8. pose proof (scalar_bound _ (Forall_inv Hs)). lia.
Qed.

Lemma enc_nonempty wide v : scalar v -> enc_of wide v <> [] /\ v <> 0%N.
Proof.
  intro H. apply scalar_bound in H. split; [|lia]. unfold enc_of, utf8, utf16. destruct wide.
  - destruct (v <? 65536)%N; discriminate.
  - destruct (v <? 128)%N; [discriminate|]. destruct (v <? 2048)%N; [discriminate|]. destruct (v <? 65536)%N; discriminate.
Qed.

(** Comparing well formed texts yields -1 if they have the same sequence of representatives (and the longest common
    prefix was not asked for), and otherwise the length in units of the longest prefix of the left text whose
    elements agree with those of the right text. *)
Theorem c25_compare : forall lower wide mode fuzzy lcd exact_slash ml el p mr er q l r,
  Forall scalar l -> Forall scalar r ->
  text_at ml el p (encode wide l) -> text_at mr er q (encode wide r) ->
  exists esl esr, elements (key lower mode fuzzy exact_slash) l esl /\ elements (key lower mode fuzzy exact_slash) r esr /\
    let n := agree (map fst esl) (map fst esr) in
    exists z, str_compare lower wide mode fuzzy lcd exact_slash ml el p mr er q = Some z /\
      (lcd = false -> map fst esl = map fst esr -> z = (-1)%Z) /\
      (lcd = true \/ map fst esl <> map fst esr ->
       z = Z.of_nat (length (encode wide (flat_map snd (firstn n esl))))).
Proof.
  intros lower wide mode fuzzy lcd exact_slash ml el p mr er q l r Hl Hr Htl Htr.
  destruct (elements_exist (key lower mode fuzzy exact_slash) (length l) l (le_n _)) as [esl Hel].
  destruct (elements_exist (key lower mode fuzzy exact_slash) (length r) r (le_n _)) as [esr Her].
  exists esl, esr. split; [auto|]. split; [auto|]. cbv zeta.
  pose proof (text_at_len _ _ _ _ Htl) as Hll. pose proof (text_at_len _ _ _ _ Htr) as Hlr.
  destruct (cmp_loop_ok lower mode fuzzy exact_slash ml mr el er (enc_of wide)
     (if wide then next16 ml el else next8 ml el) (if wide then next16 mr er else next8 mr er) scalar
     (enc_nonempty wide) (read_wf wide ml el) (read_wf wide mr er)
     (S (length ml + length mr)) l r esl esr p q Hl Hr Hel Her Htl Htr ltac:(unfold encode in *; lia))
    as (l' & r' & Hc & Hl' & Hr' & Hcl & Hcr).
  unfold str_compare. rewrite Hc. fold (encode wide) in *.
  set (n := agree (map fst esl) (map fst esr)) in *.
  assert (Hml : more ml el (p + length (encode wide (flat_map snd (firstn n esl)))) =
                Some (match encode wide l' with [] => false | _ => true end)).
  { apply more_text. rewrite Hl' in Htl. unfold encode in *. rewrite flat_map_app in Htl. apply text_at_suffix in Htl. exact Htl. }
  assert (Hmr : more mr er (q + length (encode wide (flat_map snd (firstn n esr)))) =
                Some (match encode wide r' with [] => false | _ => true end)).
  { apply more_text. rewrite Hr' in Htr. unfold encode in *. rewrite flat_map_app in Htr. apply text_at_suffix in Htr. exact Htr. }
  unfold encode in Hml, Hmr. rewrite Hml, Hmr. fold (encode wide l') (encode wide r').
  assert (Hnil : forall v, Forall scalar v -> (encode wide v = [] <-> v = [])).
  { intros [|x v] Hv; [tauto|]. split; [|discriminate]. unfold encode. cbn [flat_map]. intro H.
    apply app_eq_nil in H as [H _]. destruct (enc_nonempty wide x (Forall_inv Hv)) as [H1 _]. contradiction. }
  assert (Hsl' : Forall scalar l') by (rewrite Hl' in Hl; apply Forall_app in Hl; apply Hl).
  assert (Hsr' : Forall scalar r') by (rewrite Hr' in Hr; apply Forall_app in Hr; apply Hr).
  specialize (Hnil l' Hsl') as Hnl. specialize (Hnil r' Hsr') as Hnr.
  eexists; split; [reflexivity|]. split.
  - intros -> Hk. assert (n = length esl) as Hn1.
    { unfold n. rewrite <- Hk, agree_refl, map_length. reflexivity. }
    assert (n = length esr) as Hn2.
    { rewrite Hn1, <- (map_length fst esl), Hk, map_length. reflexivity. }
    apply Hcl in Hn1. apply Hcr in Hn2. rewrite Hn1, Hn2. reflexivity.
  - intros H. destruct (lcd || match encode wide l' with [] => false | _ => true end ||
                        match encode wide r' with [] => false | _ => true end) eqn:E.
    + f_equal. unfold encode. lia.
    + exfalso. destruct lcd; [discriminate|]. destruct H as [H|H]; [discriminate|].
      destruct (encode wide l') eqn:El; [|discriminate]. destruct (encode wide r') eqn:Er; [|discriminate].
      apply H. apply agree_full; fold n; rewrite map_length.
      * apply Hcl. apply Hnl; auto.
      * apply Hcr. apply Hnr; auto.
Qed.
Print Assumptions c25_compare.

(** Two texts are equal for the active mode: str_compare returns -1 on NUL terminated copies of them. *)
Definition compare_eq lower wide mode fuzzy exact_slash (l r : list N) : Prop :=
  str_compare lower wide mode fuzzy false exact_slash (encode wide l ++ [0%N]) None 0 (encode wide r ++ [0%N]) None 0
  = Some (-1)%Z.

Lemma wf_text wide vs : Forall scalar vs -> text_at (encode wide vs ++ [0%N]) None 0 (encode wide vs).
Proof.
  intro H. exists [], [0%N]. split; [reflexivity|]. split; [reflexivity|]. split; [|right; split; [reflexivity|exact I]].
  unfold encode. induction H as [|v vs Hv Hvs IH]; [constructor|]. cbn [flat_map]. apply Forall_app. split; [|exact IH].
  apply scalar_bound in Hv. unfold enc_of, utf16, utf8. destruct wide.
  - destruct (N.ltb_spec v 65536); repeat (constructor; [lia|]); constructor.
  - destruct (N.ltb_spec v 128); [|destruct (N.ltb_spec v 2048); [|destruct (N.ltb_spec v 65536)]];
      repeat (constructor; [lia|]); constructor.
Qed.

Lemma compare_eq_iff lower wide mode fuzzy exact_slash l r : Forall scalar l -> Forall scalar r ->
  compare_eq lower wide mode fuzzy exact_slash l r <->
  exists esl esr, elements (key lower mode fuzzy exact_slash) l esl /\ elements (key lower mode fuzzy exact_slash) r esr /\
    map fst esl = map fst esr.
Proof.
  intros Hl Hr. unfold compare_eq.
  destruct (c25_compare lower wide mode fuzzy false exact_slash _ None 0 _ None 0 l r Hl Hr (wf_text wide l Hl) (wf_text wide r Hr))
    as (esl & esr & Hel & Her & z & Hz & H1 & H2).
  rewrite Hz. split.
  - intro E. injection E as ->. exists esl, esr. split; [auto|]. split; [auto|].
    destruct (list_eq_dec N.eq_dec (map fst esl) (map fst esr)) as [He|He]; [auto|].
    specialize (H2 (or_intror He)). lia.
  - intros (esl' & esr' & Hel' & Her' & He).
    rewrite (elements_fun _ _ _ _ Hel' Hel), (elements_fun _ _ _ _ Her' Her) in He. rewrite H1; auto.
Qed.

(** Equality is an equivalence relation, in every mode. *)
Theorem c25_equivalence : forall lower wide mode fuzzy exact_slash a b c,
  Forall scalar a -> Forall scalar b -> Forall scalar c ->
  let eq := compare_eq lower wide mode fuzzy exact_slash in
  eq a a /\ (eq a b -> eq b a) /\ (eq a b -> eq b c -> eq a c).
Proof.
  intros lower wide mode fuzzy exact_slash a b c Ha Hb Hc. cbv zeta. rewrite !compare_eq_iff by auto.
  split; [|split].
  - destruct (elements_exist (key lower mode fuzzy exact_slash) (length a) a (le_n _)) as [es He].
    exists es, es. auto.
  - intros (x & y & Hx & Hy & E). exists y, x. auto.
  - intros (x & y & Hx & Hy & E) (y' & z & Hy' & Hz & E'). exists x, z. split; [auto|]. split; [auto|].
    rewrite E, (elements_fun _ _ _ _ Hy Hy'). exact E'.
Qed.
Print Assumptions c25_equivalence.

(** Exact mode without path separators: -1 exactly for the same text, and otherwise the length of the longest common
    prefix. *)
Theorem c25_exact : forall lower wide exact_slash l r a l' r',
  Forall scalar l -> Forall scalar r -> Forall (fun c => ~ sep c) l -> Forall (fun c => ~ sep c) r ->
  l = a ++ l' -> r = a ++ r' -> match l', r' with x :: _, y :: _ => x <> y | _, _ => True end ->
  str_compare lower wide 0 false false exact_slash (encode wide l ++ [0%N]) None 0 (encode wide r ++ [0%N]) None 0 =
    Some (if match l', r' with [], [] => true | _, _ => false end then (-1)%Z else Z.of_nat (length (encode wide a))).
Proof.
  intros lower wide exact_slash l r a l' r' Hl Hr Hsl Hsr El Er Hd.
  destruct (c25_compare lower wide 0 false false exact_slash _ None 0 _ None 0 l r Hl Hr (wf_text wide l Hl) (wf_text wide r Hr))
    as (esl & esr & Hel & Her & z & Hz & H1 & H2).
  rewrite Hz.
  assert (Hk : forall c, ~ sep c -> key lower 0 false exact_slash c = c).
  { intros c Hc. unfold key. destruct exact_slash; [reflexivity|].
    destruct (N.eqb_spec c 92) as [->|]; [|reflexivity]. exfalso. apply Hc. right; reflexivity. }
  assert (Hels : forall vs, Forall (fun c => ~ sep c) vs -> elements (key lower 0 false exact_slash) vs (map (fun c => (c, [c])) vs)).
  { induction 1 as [|c vs Hc Hvs IH]; [constructor|]. cbn [map]. rewrite <- (Hk c Hc) at 2. constructor; auto.
    rewrite (Hk c Hc). intros ->. apply Hc. left; reflexivity. }
  pose proof (elements_fun _ _ _ _ Hel (Hels l Hsl)) as ->. pose proof (elements_fun _ _ _ _ Her (Hels r Hsr)) as ->.
  rewrite !map_map in *. cbn [fst] in *. rewrite !map_id in *.
  assert (Hag : agree l r = length a).
  { subst l r. clear - Hd. induction a as [|x a IH]; cbn [app agree length].
    - destruct l' as [|x l'], r' as [|y r']; try reflexivity. cbn. destruct (N.eqb_spec x y); [contradiction|reflexivity].
    - rewrite N.eqb_refl. f_equal. exact IH. }
  rewrite Hag in H2.
  assert (Hfl : flat_map snd (firstn (length a) (map (fun c => (c, [c])) l)) = a).
  { subst l. rewrite firstn_map, firstn_app_exact by reflexivity. clear. induction a as [|x a IH]; [reflexivity|]. cbn in *. f_equal. exact IH. }
  rewrite Hfl in H2.
  destruct l' as [|x l'], r' as [|y r'].
  - rewrite H1; auto. subst l r. reflexivity.
  - rewrite H2; auto. right. subst l r. intro E. apply app_inv_head in E. discriminate.
  - rewrite H2; auto. right. subst l r. intro E. apply app_inv_head in E. discriminate.
  - rewrite H2; auto. right. subst l r. intro E. apply app_inv_head in E. injection E as E _. contradiction.
Qed.
Print Assumptions c25_exact.

(** normalize_accent is the lookup in its (sorted) table; it is idempotent and never yields a path separator, '.'
    or a wildcard. *)
Theorem c25_accents : forall c,
  normalize_accent c = assoc accents c /\ normalize_accent (normalize_accent c) = normalize_accent c /\
  (In (normalize_accent c) [46; 42; 63; 47; 92; 58]%N -> normalize_accent c = c).
Proof.
  intro c.
  assert (Hall : forall l, forallb (fun x => N.eqb (assoc accents (snd x)) (snd x) &&
     negb (existsb (N.eqb (snd x)) [46; 42; 63; 47; 92; 58]%N)) l = true ->
     assoc l c = c \/ (assoc accents (assoc l c) = assoc l c /\ ~ In (assoc l c) [46; 42; 63; 47; 92; 58]%N)).
  { induction l as [|[a n] l IH]; intro H; cbn [assoc]; [auto|]. cbn [forallb snd] in H.
    apply andb_true_iff in H as [H Hl]. apply andb_true_iff in H as [H H2].
    destruct (N.eqb_spec a c) as [->|]; [|auto]. right. split; [apply N.eqb_eq; exact H|].
    intro Hin. apply negb_true_iff in H2. rewrite <- not_true_iff_false in H2. apply H2. apply existsb_exists.
    exists n. split; [auto|apply N.eqb_refl]. }
  specialize (Hall accents ltac:(vm_compute; reflexivity)).
  rewrite (normalize_assoc (normalize_accent c)), normalize_assoc.
  split; [reflexivity|]. destruct Hall as [He|[H1 H2]].
  - rewrite He. split; [exact He|auto].
  - split; [exact H1|]. intro H. contradiction.
Qed.
Print Assumptions c25_accents.

Definition bs (s : string) : list N := map N_of_ascii (list_ascii_of_string s).
Definition ascii_lower (c : N) : N := if ((65 <=? c) && (c <=? 90))%N then (c + 32)%N else c.

Ltac scalars := apply Forall_forall; let v := fresh in let H := fresh in intros v H; vm_compute in H; unfold scalar;
  repeat (destruct H as [<-|H]; [lia|]); destruct H.

(** Abc-d\\\e and aBC_D/e are equal in relaxed mode; in caseless mode they agree on three characters; é and e agree
    with fuzzy accents. *)
Example c25_example :
  let l := bs "Abc-d\\\e" in let r := bs "aBC_D/e" in
  Forall scalar l /\ Forall scalar r /\
  compare_eq ascii_lower false 2 false false l r /\
  str_compare ascii_lower false 1 false false false (encode false l ++ [0%N]) None 0 (encode false r ++ [0%N]) None 0 = Some 3%Z /\
  str_compare ascii_lower false 2 false false true (encode false l ++ [0%N]) None 0 (encode false r ++ [0%N]) None 0 = Some 5%Z /\
  str_compare ascii_lower false 0 true false true (encode false [233; 120]%N ++ [0%N]) None 0 (bs "ey" ++ [0%N]) None 0 = Some 2%Z.
Proof.
  cbv zeta. split; [scalars|]. split; [scalars|]. unfold compare_eq.
  split; [vm_compute; reflexivity|]. split; [vm_compute; reflexivity|]. split; vm_compute; reflexivity.
Qed.

(** A malformed text (here: an incomplete last character) is not even equal to itself. *)
Theorem c25_malformed_refuted :
  str_compare ascii_lower false 0 false false false (bs "a" ++ [195; 0]%N) None 0 (bs "a" ++ [195; 0]%N) None 0 = Some 1%Z.
Proof. vm_compute. reflexivity. Qed.
Print Assumptions c25_malformed_refuted.

(** With exact slashes, a backslash after a matched slash is skipped nevertheless. *)
Theorem c25_exact_slash_refuted :
  compare_eq ascii_lower false 0 false true (bs "a/b") (bs "a/\b") /\ bs "a/b" <> bs "a/\b".
Proof. split; [vm_compute; reflexivity|discriminate]. Qed.
Print Assumptions c25_exact_slash_refuted.
