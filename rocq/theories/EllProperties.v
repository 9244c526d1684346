(** C44: ellipsified text. *)
From Verif Require Import Base UtfModel UtfSpec UtfProofs EscModel EscSpec EscProofs EscSplit WidthModel WcModel WcSpec WcProofs WcProperties EllModel EllSpec EllProofs EllText.
Open Scope N_scope.

Section C44.
Variable ce : bool.
Variable wcw : N -> Z.
(** Any bytes, any ellipsis, every mode: the cells returned are within the limit, and text that fits is unchanged. *)
Theorem c44_bound t limit m e ex : (0 <= limit)%Z -> exists out n tr, ellipsify_ex ce wcw t limit m e ex = Some (out, n, tr) /\ (0 <= n <= limit)%Z.
Proof. apply ex_bound. Qed.
Theorem c44_unchanged t limit m e ex n : (0 <= limit)%Z -> measure ce wcw ex t = Some n ->
  ((n <= limit)%Z -> ellipsify_ex ce wcw t limit m e ex = Some (t, n, false)) /\ ((limit < n)%Z -> m <> PATH -> exists out k, ellipsify_ex ce wcw t limit m e ex = Some (out, k, true)).
Proof.
  intros Hl M. unfold measure in M. split.
  - intro H. destruct m; cbn [ellipsify_ex].
    + destruct (right_spec ce wcw t limit e ex Hl) as (cs & ec & E & _ & _ & R). rewrite E in M. injection M as M. fold (width (bits (concat cs))) in M. cbv zeta in R. unfold sum_cells in M. fold (width (bits (concat cs))) in M. rewrite M in R. replace (n <=? limit)%Z with true in R by lia. exact R.
    + destruct (left_spec ce wcw t limit e ex Hl) as (cs & ec & E & _ & _ & R). rewrite E in M. injection M as M. unfold sum_cells in M. fold (width (bits (concat cs))) in M. cbv zeta in R. rewrite M in R. replace (n <=? limit)%Z with true in R by lia. exact R.
    + unfold path_. destruct (e_cells_total ce wcw e) as (ec & -> & _). destruct (codes_of ce wcw ex t) as [cs|] eqn:Ec; [|discriminate]. injection M as M. assert (exists sc, scan_all t = Some sc) as (sc & Es) by (apply scan_total; apply parse_total). rewrite Es. cbv zeta. rewrite M. replace (n <=? limit)%Z with true by lia. reflexivity.
  - intros H Hm. destruct m; [| |congruence]; cbn [ellipsify_ex].
    + destruct (right_spec ce wcw t limit e ex Hl) as (cs & ec & E & _ & _ & R). rewrite E in M. injection M as M. unfold sum_cells in M. fold (width (bits (concat cs))) in M. cbv zeta in R. rewrite M in R. replace (n <=? limit)%Z with false in R by lia. destruct R as (k & eo & w & _ & R & _). eauto.
    + destruct (left_spec ce wcw t limit e ex Hl) as (cs & ec & E & _ & _ & R). rewrite E in M. injection M as M. unfold sum_cells in M. fold (width (bits (concat cs))) in M. cbv zeta in R. rewrite M in R. replace (n <=? limit)%Z with false in R by lia. destruct R as (k & eo & w & _ & R & _). eauto.
Qed.

(** Well formed text, the standard ellipsis, where it takes one cell *)
Hypothesis W : wcw 8230 = 1%Z.
(** [cut l limit k]: characters and codes up to the k-th, the longest part of [l] that leaves room for the ellipsis *)
Definition cut (l : list bit) (limit : Z) (k : nat) : Prop :=
  (width (firstn k l) + 1 <= limit)%Z /\ exists b, nth_error l k = Some b /\ is_chars b = true /\ (limit < width (firstn k l) + bcells b + 1)%Z.
Lemma cut_of l limit k : (1 <= limit)%Z -> cut_at limit 1 l 0 k -> cut l limit k.
Proof. intros H (b & En & Eb & E1 & E2). split; [lia|]. exists b. split; [exact En|]. split; [exact Eb|]. lia. Qed.

Theorem c44_ellipsify ks css limit ex : good_text ks -> shown ce wcw ex ks css -> (1 <= limit)%Z ->
  let l := concat css in
  if (width l <=? limit)%Z then ellipsify ce wcw (enc ks) limit ex = Some (enc ks, width l)
  else exists k, cut l limit k /\ let out := text (firstn k l) ++ dots in let n := (width (firstn k l) + 1)%Z in
    ellipsify ce wcw (enc ks) limit ex = Some (out, n) /\ measure ce wcw ex out = Some n.
Proof.
  intros K H Hl. cbv zeta. pose proof (good_ok _ K) as O. destruct (codes_of_tokens ce wcw ex ks css H O) as (cs0 & E0 & Ec0). destruct (ellipsify_spec ce wcw (enc ks) limit ex ltac:(lia)) as (cs & nd & E & _ & Ed & R). rewrite E0 in E. injection E as <-. cbv zeta in R. rewrite Ec0, bits_place in R.
  unfold cell_count in Ed. rewrite (measure_dots ce wcw W) in Ed. injection Ed as <-. destruct (width (concat css) <=? limit)%Z; [rewrite R, (shown_text _ _ _ _ _ H); reflexivity|].
  destruct R as (k & Kc & R). exists k. pose proof (cut_of _ _ _ Hl Kc) as C. split; [exact C|]. split; [exact R|]. destruct C as (_ & b & En & Eb & _).
  destruct (right_tokens ce wcw W ex ks css H K k b En Eb) as (ks' & css' & H' & O' & Ec & _). pose proof (measure_tokens ce wcw ex ks' css' H' O') as M. pose proof (shown_text _ _ _ _ _ H') as T. rewrite Ec in M, T. rewrite width_app in M. rewrite text_app in T. change (text [dot]) with dots in T. change (enc ks') with (kbytes ks') in M. rewrite <- T in M. exact M.
Qed.
Theorem c44_right ks css limit ex : good_text ks -> shown ce wcw ex ks css -> (1 <= limit)%Z ->
  let l := concat css in
  if (width l <=? limit)%Z then ellipsify_ex ce wcw (enc ks) limit RIGHT None ex = Some (enc ks, width l, false)
  else exists k, cut l limit k /\ let out := text (firstn k l) ++ dots in let n := (width (firstn k l) + 1)%Z in
    ellipsify_ex ce wcw (enc ks) limit RIGHT None ex = Some (out, n, true) /\ measure ce wcw ex out = Some n.
Proof.
  intros K H Hl. cbv zeta. pose proof (good_ok _ K) as O. destruct (codes_of_tokens ce wcw ex ks css H O) as (cs0 & E0 & Ec0). destruct (right_spec ce wcw (enc ks) limit None ex ltac:(lia)) as (cs & ec & E & _ & Ed & R). rewrite E0 in E. injection E as <-. cbv zeta in R. rewrite Ec0, bits_place in R.
  injection Ed as <-. destruct (width (concat css) <=? limit)%Z; [exact R|].
  destruct R as (k & eo & w & Kc & R & _ & _ & F). exists k. pose proof (cut_of _ _ _ Hl Kc) as C. split; [exact C|]. destruct C as (Cw & b & En & Eb & _). specialize (F ltac:(lia)). destruct (fit_dots ce wcw W _ _ _ _ F ltac:(lia)) as [-> ->]. split; [exact R|].
  destruct (right_tokens ce wcw W ex ks css H K k b En Eb) as (ks' & css' & H' & O' & Ec & _). pose proof (measure_tokens ce wcw ex ks' css' H' O') as M. pose proof (shown_text _ _ _ _ _ H') as T. rewrite Ec in M, T. rewrite width_app in M. rewrite text_app in T. change (text [dot]) with dots in T. change (enc ks') with (kbytes ks') in M. rewrite <- T in M. exact M.
Qed.
(** From the left: the codes of what is left out stay, then the ellipsis, then the longest end of the text that fits. *)
Definition cut_left (l : list bit) (limit : Z) (k : nat) : Prop :=
  (width (skipn k l) + 1 <= limit)%Z /\ exists j b, k = S j /\ nth_error l j = Some b /\ is_chars b = true /\ (limit < bcells b + width (skipn k l) + 1)%Z.
Lemma width_codes l : code0 l -> width (codes_only l) = 0%Z.
Proof. unfold codes_only. induction 1 as [|b l H F IH]; [reflexivity|]. cbn [filter]. destruct (is_chars b); [exact IH|]. cbn [negb]. rewrite width_cons, IH, (H eq_refl). reflexivity. Qed.
Theorem c44_left ks css limit ex : good_text ks -> shown ce wcw ex ks css -> unattached ce wcw ks -> (1 <= limit)%Z ->
  let l := concat css in
  if (width l <=? limit)%Z then ellipsify_ex ce wcw (enc ks) limit LEFT None ex = Some (enc ks, width l, false)
  else exists k, cut_left l limit k /\ let out := text (codes_only (firstn k l)) ++ dots ++ text (skipn k l) in let n := (width (skipn k l) + 1)%Z in
    ellipsify_ex ce wcw (enc ks) limit LEFT None ex = Some (out, n, true) /\ measure ce wcw ex out = Some n.
Proof.
  intros K H U Hl. cbv zeta. pose proof (good_ok _ K) as O. destruct (codes_of_tokens ce wcw ex ks css H O) as (cs0 & E0 & Ec0). destruct (codes_of_total ce wcw ex (enc ks)) as (cs1 & E1 & _ & C0). rewrite E0 in E1. injection E1 as <-. rewrite Ec0, bits_place in C0.
  destruct (left_spec ce wcw (enc ks) limit None ex ltac:(lia)) as (cs & ec & E & _ & Ed & R). rewrite E0 in E. injection E as <-. cbv zeta in R. rewrite Ec0, bits_place in R.
  injection Ed as <-. destruct (width (concat css) <=? limit)%Z eqn:Ew; [exact R|]. set (l := concat css) in *.
  destruct R as (j & eo & w & Kc & R & _ & P & _ & F). exists (length l - j)%nat. destruct Kc as (b & En & Eb & B1 & B2). rewrite firstn_rev, width_rev in B1, B2.
  assert (Hj : (j < length l)%nat) by (rewrite <- (rev_length l); apply nth_error_Some; congruence). assert (En' : nth_error l (length l - S j) = Some b).
  { rewrite nth_error_nth' with (d := b) by lia. rewrite nth_error_nth' with (d := b) in En by (rewrite rev_length; lia). rewrite rev_nth in En by exact Hj. exact En. }
  assert (C : cut_left l limit (length l - j)) by (split; [lia|]; exists (length l - S j)%nat, b; split; [lia|]; split; [exact En'|]; split; [exact Eb|lia]). split; [exact C|].
  destruct C as (Cw & _). specialize (F ltac:(lia)). destruct (fit_dots ce wcw W _ _ _ _ F ltac:(lia)) as [-> ->]. set (k := (length l - j)%nat) in *. replace (length l - S j)%nat with (k - 1)%nat in En' by (unfold k; lia).
  assert (Et : enc ks = [] ++ text (firstn k l) ++ text (skipn k l)) by (cbn [app]; rewrite <- text_app, firstn_skipn; symmetry; exact (shown_text _ _ _ _ _ H)). split.
  - etransitivity; [exact R|]. f_equal. f_equal. f_equal. f_equal; [|f_equal].
    + rewrite place_firstn. rewrite Et. apply (place_lead (firstn k l) [] (text (skipn k l)) 0 eq_refl).
    + rewrite place_nth. destruct (skipn k l) as [|b' l'] eqn:El; [reflexivity|]. cbn [place snd]. rewrite Et. cbn [app Nat.add]. rewrite skipn_app, skipn_all, Nat.sub_diag. reflexivity.
  - destruct (left_tokens ce wcw W ex ks css H K U (k - 1) b En' Eb) as (ks' & css' & H' & O' & Ec). replace (S (k - 1)) with k in Ec by (unfold k; lia). fold l in Ec. pose proof (measure_tokens ce wcw ex ks' css' H' O') as M. pose proof (shown_text _ _ _ _ _ H') as T. rewrite Ec in M, T.
    change (dot :: skipn k l) with ([dot] ++ skipn k l) in M, T. rewrite !width_app in M. rewrite !text_app in T. change (text [dot]) with dots in T. change (enc ks') with (kbytes ks') in M. rewrite <- T in M. rewrite M. f_equal. change (width [dot]) with 1%Z.
    rewrite width_codes; [lia|]. unfold code0 in *. rewrite <- (firstn_skipn k l) in C0. apply Forall_app in C0 as [C0 _]. exact C0.
Qed.
(** PATH: the drive stays and the rest is truncated from the left. *)
Theorem c44_path ks d c cs limit n : good_text (KText (d :: 58 :: c :: cs) :: ks) -> letter d = true ->
  measure ce wcw false [d; 58] = Some 2%Z -> (3 <= limit)%Z -> measure ce wcw false (enc (KText (d :: 58 :: c :: cs) :: ks)) = Some n -> (limit < n)%Z -> 
  let rest := enc (KText (c :: cs) :: ks) in
  (exists m, measure ce wcw false rest = Some m /\ (limit - 2 < m)%Z) ->
  exists out k, ellipsify_ex ce wcw rest (limit - 2) LEFT None false = Some (out, k, true) /\ (1 <= k <= limit - 2)%Z /\
    ellipsify_ex ce wcw (enc (KText (d :: 58 :: c :: cs) :: ks)) limit PATH None false = Some (d :: 58 :: out, (2 + k)%Z, true).
Proof.
  intros K Hd M2 Hl M Hn. cbv zeta. set (rest := enc (KText (c :: cs) :: ks)). intros (m & Mr & Hm). assert (Et : enc (KText (d :: 58 :: c :: cs) :: ks) = d :: 58 :: rest).
  { unfold rest, enc. cbn [flat_map ktext app]. unfold bytes_of. cbn [flat_map]. unfold utf8 at 1 2. unfold letter in Hd. replace (d <? 128) with true by lia. reflexivity. }
  destruct (left_spec ce wcw rest (limit - 2) None false ltac:(lia)) as (cr & ec & Er & _ & Ed & R). injection Ed as <-. unfold measure in Mr. rewrite Er in Mr. injection Mr as Mr. unfold sum_cells in Mr. fold (width (bits (concat cr))) in Mr. cbv zeta in R. rewrite Mr in R. replace (m <=? limit - 2)%Z with false in R by lia.
  destruct R as (j & eo & w & Kc & R & W1 & P & W2 & F). assert (Hw : w = 1%Z).
  { destruct Kc as (b & _ & _ & _ & B2). rewrite firstn_rev, width_rev in B2. specialize (F ltac:(lia)). destruct (fit_dots ce wcw W _ _ _ _ F ltac:(lia)) as [_ ->]. reflexivity. }
  eexists _, _. split; [exact R|]. split; [lia|]. cbn [ellipsify_ex] in *. unfold path_. pose proof (good_ok _ K) as O. rewrite Et. unfold measure in M. rewrite Et in M. destruct (codes_of ce wcw false (d :: 58 :: rest)) as [cs1|]; [|discriminate]. injection M as M. cbn [e_cells].
  assert (Es : scan_all (d :: 58 :: rest) = Some (plan 0 (KText (d :: 58 :: c :: cs) :: ks))).
  { rewrite <- Et. unfold scan_all. change (enc (KText (d :: 58 :: c :: cs) :: ks)) with (kbytes (KText (d :: 58 :: c :: cs) :: ks)). apply (scan_tokens wcw _ O 0). pose proof (kbytes_len _ (proj1 O)). lia. }
  rewrite Es. cbv zeta. rewrite M. replace (n <=? limit)%Z with false by lia. cbn [plan drive is_text ktext].
  destruct K as (K & _ & _). pose proof (proj1 (Forall_inv K)) as Fs. cbn [ktext] in Fs. assert (Ed : dchars (length (bs (d :: 58 :: c :: cs))) (bs (d :: 58 :: c :: cs)) 0 0 = DYes 2).
  { assert (exists f, length (bs (d :: 58 :: c :: cs)) = S (S (S f))) as [f ->] by (pose proof (bs_len (d :: 58 :: c :: cs)) as L; cbn [length] in L; exists (length (bs (d :: 58%N :: c :: cs)) - 3)%nat; lia).
    pose proof (Forall_inv Fs) as F1. pose proof (Forall_inv_tail Fs) as F2. pose proof (Forall_inv F2) as F3. pose proof (Forall_inv (Forall_inv_tail F2)) as F4. rewrite !bs_cons. cbn [dchars]. rewrite (d8_scalar d) by exact F1. cbn [fst snd]. rewrite (d8_scalar 58) by exact F3. cbn [fst snd]. rewrite (d8_scalar c) by exact F4. cbn [fst snd].
    replace (d =? 0) with false by (unfold letter in Hd; lia). rewrite Hd. cbn [N.eqb Pos.eqb]. replace (c =? 0) with false by (pose proof (scalar_pos c F4); lia). reflexivity. }
  rewrite Ed. cbn [firstn skipn]. unfold cell_count. rewrite M2. replace (2 <=? limit)%Z with true by lia. rewrite R. replace (1 <=? width (skipn (length (bits (concat cr)) - j) (bits (concat cr))) + w)%Z with true by lia.
  replace (2 + (width (skipn (length (bits (concat cr)) - j) (bits (concat cr))) + w) <=? limit)%Z with true by lia. reflexivity.
Qed.
End C44.
Print Assumptions c44_bound.
Print Assumptions c44_unchanged.
Print Assumptions c44_ellipsify.
Print Assumptions c44_right.
Print Assumptions c44_left.
Print Assumptions c44_path.

Definition std := mk_wcwidth true 1.
(** c:\, red, a wide character, normal, "abc" *)
Definition ex_text : list token := [KText [99; 58; 92]; KCsi true [51; 49] [] 109; KText [20013]; KCsi true [] [] 109; KText [97; 98; 99]].
Definition ex_shown : list (list bit) :=
  [[(true, [99], 1%Z); (true, [58], 1%Z); (true, [92], 1%Z)]; [(false, [27; 91; 51; 49; 109], 0%Z)]; [(true, [228; 184; 173], 2%Z)]; [(false, [27; 91; 109], 0%Z)]; [(true, [97], 1%Z); (true, [98], 1%Z); (true, [99], 1%Z)]].
Lemma plain_graphemes cs : Forall (fun c => (0 < std c)%Z /\ emojis_start is_variant_selector is_possible_unqualified_half_width is_emoji c || regional c = false) cs -> graphemes true std cs (map (fun c => ([c], std c, false)) cs).
Proof.
  induction 1 as [|c cs [Hw H] F IH]; [constructor|]. cbn [map]. apply orb_false_iff in H as [H1 H2]. change (c :: cs) with ([c] ++ cs).
  assert (C : cluster true std is_variant_selector is_possible_unqualified_half_width is_emoji [c] cs (std c) false).
  { change (std c) with (widen (existsb (selects true std is_variant_selector) []) (std c)). apply cl_plain; [lia| |constructor|].
    - rewrite H1, H2. apply andb_false_r.
    - destruct F as [|c' cs' [Hw' H'] _]; [reflexivity|]. unfold starts, extends. replace (std c' =? 0)%Z with false by lia. apply orb_false_iff in H' as [H' _]. unfold emojis_start in H'. apply orb_false_iff in H' as [_ ->]. reflexivity. }
  exact (cs_cons _ _ _ _ _ [c] cs (std c) false _ C IH).
Qed.
Ltac plain := repeat (constructor; [split; [vm_compute; reflexivity|vm_compute; reflexivity]|]); constructor.
Example c44_ex_shown : good_text ex_text /\ shown true std false ex_text ex_shown.
Proof.
  split.
  - split; [|split; [|repeat constructor]].
    + unfold ex_text. repeat apply Forall_cons; try apply Forall_nil; (split; [cbn [ktext intro app]; repeat constructor; unfold scalar; lia|]).
      * split; [repeat constructor; lia|]. exists 99, [58; 92]. split; [reflexivity|lia].
      * split; [repeat constructor; lia|]. split; [constructor|lia].
      * split; [repeat constructor; lia|]. exists 20013, []. split; [reflexivity|lia].
      * split; [constructor|]. split; [constructor|lia].
      * split; [repeat constructor; lia|]. exists 97, [98; 99]. split; [reflexivity|lia].
    + cbn [separated ex_text ktext intro app]. split; [eexists _, _; split; [reflexivity|lia]|]. split; [eexists _, _; split; [reflexivity|lia]|]. exact I.
  - assert (P1 : graphemes true std [99; 58; 92] (map (fun c => ([c], std c, false)) [99; 58; 92])) by (apply plain_graphemes; plain). assert (P2 : graphemes true std [20013] (map (fun c => ([c], std c, false)) [20013])) by (apply plain_graphemes; plain). assert (P3 : graphemes true std [97; 98; 99] (map (fun c => ([c], std c, false)) [97; 98; 99])) by (apply plain_graphemes; plain).
    pose proof (sh_text true std false _ _ [] [] P3 (sh_nil _ _ _)) as S1. pose proof (sh_code true std false (KCsi true [] [] 109) _ _ I S1) as S2. pose proof (sh_text true std false _ _ _ _ P2 S2) as S3. pose proof (sh_code true std false (KCsi true [51; 49] [] 109) _ _ I S3) as S4. pose proof (sh_text true std false _ _ _ _ P1 S4) as S5. exact S5.
Qed.
Example c44_ex_right : ellipsify true std (enc ex_text) 5 false = Some ([99; 58; 92; 27; 91; 51; 49; 109; 226; 128; 166], 4%Z) /\ ellipsify true std (enc ex_text) 8 false = Some (enc ex_text, 8%Z).
Proof. vm_compute. auto. Qed.
Example c44_ex_left : ellipsify_ex true std (enc ex_text) 4 LEFT None false = Some ([27; 91; 51; 49; 109] ++ dots ++ [27; 91; 109; 97; 98; 99], 4%Z, true).
Proof. vm_compute. reflexivity. Qed.
Example c44_ex_path : ellipsify_ex true std (enc ex_text) 5 PATH None false = Some ([99; 58; 27; 91; 51; 49; 109; 27; 91; 109] ++ dots ++ [98; 99], 5%Z, true).
Proof. vm_compute. reflexivity. Qed.
(** a long ellipsis is cut as well *)
Example c44_ex_bound : ellipsify_ex true std [97; 98; 99; 100; 101] 2 RIGHT (Some [46; 46; 46]) false = Some ([46; 46], 2%Z, true).
Proof. vm_compute. reflexivity. Qed.

(** ** What does not hold *)
(** ellipsify with a limit of 0 *)
Definition c44_limit0 : Prop := forall ce wcw t ex out n, wcw 8230 = 1%Z -> ellipsify ce wcw t 0 ex = Some (out, n) -> (n <= 0)%Z.
Theorem c44_limit0_refuted : ~ c44_limit0.
Proof. intro H. specialize (H true std [97] false dots 1%Z eq_refl eq_refl). lia. Qed.
Print Assumptions c44_limit0_refuted.
(** a console where the ellipsis, an ambiguous width character, takes two cells *)
Definition c44_ambiguous : Prop := forall ce wcw t limit ex out n, (1 <= limit)%Z -> ellipsify ce wcw t limit ex = Some (out, n) -> (n <= limit)%Z.
Definition wide_ambiguous := mk_cjk (fun _ => 2%Z) std.
Theorem c44_ambiguous_refuted : ~ c44_ambiguous.
Proof. intro H. specialize (H true wide_ambiguous [97; 98; 99] 2%Z false ([97] ++ dots) 3%Z ltac:(lia) eq_refl). lia. Qed.
Print Assumptions c44_ambiguous_refuted.
(** text that ends within an escape code loses it though it fits *)
Definition c44_malformed : Prop := forall ce wcw t limit ex m, measure ce wcw ex t = Some m -> (m <= limit)%Z -> ellipsify ce wcw t limit ex = Some (t, m).
Theorem c44_malformed_refuted : ~ c44_malformed.
Proof. intro H. specialize (H true std [97; 27; 91; 49] 5%Z false 1%Z eq_refl ltac:(lia)). vm_compute in H. discriminate. Qed.
Print Assumptions c44_malformed_refuted.
(** PATH ignores expand_ctrl once it truncates *)
Definition c44_path_expand : Prop := forall ce wcw t limit out n tr m, wcw 8230 = 1%Z -> (1 <= limit)%Z -> ellipsify_ex ce wcw t limit PATH None true = Some (out, n, tr) -> measure ce wcw true out = Some m -> (m <= limit)%Z.
(** DEL is displayed in two cells *)
Theorem c44_path_expand_refuted : ~ c44_path_expand.
Proof. intro H. specialize (H true std [99; 58; 127; 127; 127] 5%Z [99; 58; 127; 127; 127] 5%Z false 8%Z eq_refl ltac:(lia) eq_refl eq_refl). lia. Qed.
Print Assumptions c44_path_expand_refuted.
(** LEFT, with a character that attaches to the ellipsis: a flag and a variation selector *)
Definition c44_left_any : Prop := forall ce wcw cps limit out n tr, wcw 8230 = 1%Z -> Forall scalar cps -> (1 <= limit)%Z -> ellipsify_ex ce wcw (bytes_of cps) limit LEFT None false = Some (out, n, tr) -> measure ce wcw false out = Some n.
Theorem c44_left_any_refuted : ~ c44_left_any.
Proof.
  intro H. destruct (ellipsify_ex true std (bytes_of [127482; 127480; 65039; 97; 98]) 5 LEFT None false) as [[[out n] tr]|] eqn:E; [|vm_compute in E; discriminate].
  specialize (H true std [127482; 127480; 65039; 97; 98] 5%Z out n tr eq_refl ltac:(repeat constructor; unfold scalar; lia) ltac:(lia) E). vm_compute in E. injection E as <- <- <-. vm_compute in H. discriminate.
Qed.
Print Assumptions c44_left_any_refuted.
