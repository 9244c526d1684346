(** C46: coloring of the input line. *)
From Verif Require Import Base ColorModel FaceModel FaceSpec FaceProofs.
From Verif Require SettingsSpec SettingsProofs.

(** ** The layers *)
Lemma on_layer_snoc ms m words pos : on_layer (ms ++ [m]) words pos =
  if Bool.eqb (m_words m) words && covers m pos
  then if m_over m then Some (m_look m) else match on_layer ms words pos with Some l => Some l | None => Some (m_look m) end
  else on_layer ms words pos.
Proof.
  unfold on_layer. cbv zeta. rewrite filter_app. cbn [filter]. destruct (Bool.eqb (m_words m) words && covers m pos).
  - rewrite rev_app_distr. cbn [rev app find]. destruct (m_over m); [reflexivity|].
    destruct (find m_over (rev (filter _ ms))) as [x|]; [reflexivity|]. destruct (filter _ ms) as [|x l]; reflexivity.
  - rewrite app_nil_r. reflexivity.
Qed.

Definition colored (s : wc) (ms : list mark) : Prop :=
  forall p words, p < w_len s ->
    match on_layer ms words p with
    | Some l => looks s (at_pos s words p) = l /\ l <> Face SPC
    | None => at_pos s words p = SPC
    end.
Lemma at_pos_ok s (words : bool) p : inv s -> p < w_len s -> at_pos s words p <> NUL /\ nat_of_ascii (at_pos s words p) < 128 + (if words then 0 else length (w_defs s)).
Proof.
  intros (_ & _ & A) P. unfold arrays_ok, at_pos, layer in *. destruct (w_faces s) as [f|], (w_words s) as [w|]; try contradiction; try lia.
  destruct A as (_ & L1 & L2 & B1 & B2). unfold bytes_ok in *. rewrite Forall_forall in B1, B2. destruct words; [apply B2|apply B1]; apply nth_In; lia.
Qed.

Lemma apply_colored s ms (words : bool) st ln f ow from count : inv s -> colored s ms ->
  f <> NUL -> f <> SPC -> nat_of_ascii f < 128 + (if words then 0 else length (w_defs s)) ->
  (forall p, p < w_len s -> covers (mkm words from count (looks s f) ow) p = N.leb st (N.of_nat p) && N.ltb (N.of_nat p) (st + ln)) ->
  colored (apply_face s words st ln f ow) (ms ++ [mkm words from count (looks s f) ow]).
Proof.
  intros I C F1 F2 F3 CV. destruct (apply_face_step s words st ln f ow I F1 F3) as (I' & D & L & _ & AT). cbv zeta in *.
  set (s' := apply_face s words st ln f ow) in *. intros p w P. rewrite L in P. destruct (AT p P) as [A1 A2]. rewrite on_layer_snoc, (CV p P). cbn [m_words m_over m_look].
  assert (LK : forall g, nat_of_ascii g < 128 + length (w_defs s) -> looks s' g = looks s g).
  { intros g G. apply looks_more; [exact G|]. exists []. rewrite app_nil_r. exact D. }
  assert (FL : nat_of_ascii f < 128 + length (w_defs s)) by (destruct words; lia).
  specialize (C p w P). destruct (Bool.eqb words w) eqn:EW.
  - apply Bool.eqb_prop in EW. subst w. cbn [andb]. rewrite A2.
    pose proof (at_pos_ok s words p I P) as [O1 O2].
    assert (O3 : nat_of_ascii (at_pos s words p) < 128 + length (w_defs s)) by (destruct words; lia).
    assert (NS : looks s f <> Face SPC) by (intro X; apply looks_space in X; auto).
    destruct (N.leb st (N.of_nat p) && N.ltb (N.of_nat p) (st + ln)).
    + unfold put. destruct ow; cbn [orb].
      * rewrite LK by auto. auto.
      * destruct (on_layer ms words p) as [l|].
        { destruct C as [C1 C2]. destruct (Ascii.eqb_spec (at_pos s words p) FACE_SPACE) as [E|E].
          - exfalso. apply C2. rewrite <- C1, E. reflexivity.
          - rewrite LK by auto. auto. }
        { rewrite C. replace (Ascii.eqb SPC FACE_SPACE) with true by reflexivity. rewrite LK by auto. auto. }
    + destruct (on_layer ms words p); [|exact C]. rewrite LK by auto. exact C.
  - cbn [andb]. assert (w = negb words) as -> by (destruct w, words; try reflexivity; discriminate EW). rewrite A1.
    pose proof (at_pos_ok s (negb words) p I P) as [O1 O2].
    assert (O3 : nat_of_ascii (at_pos s (negb words) p) < 128 + length (w_defs s)) by (destruct words; cbn [negb] in *; lia).
    destruct (on_layer ms (negb words) p); [|exact C]. rewrite LK by auto. exact C.
Qed.

(** ** Codes *)
Lemma unlike_nodup ds : ForallOrdPairs (fun a b => ~ alike a b) ds -> NoDup ds.
Proof.
  induction 1 as [|d ds F _ IH]; [apply NoDup_nil|]. apply NoDup_cons; [|exact IH]. intro I. rewrite Forall_forall in F. apply (F d I). reflexivity.
Qed.
Lemma not_full C ds code : no_case C -> few C -> ForallOrdPairs (fun a b => ~ alike a b) ds -> incl ds C -> In code C ->
  (forall e, In e ds -> ~ alike e code) -> length ds < face_max.
Proof.
  intros NC FW U INC I N. assert (ND : NoDup (code :: ds)).
  { apply NoDup_cons; [|apply unlike_nodup; exact U]. intro X. apply (N code X). reflexivity. }
  assert (INC2 : incl (code :: ds) (nodup code_dec C)).
  { intros x [<-|X]; apply nodup_In; auto. }
  pose proof (NoDup_incl_length ND INC2) as L. cbn [length] in L. unfold few in FW. unfold face_max. lia.
Qed.

Lemma u32_small z : (0 <= z < 4294967296)%Z -> u32 z = Z.to_N z.
Proof. intro H. unfold u32. rewrite Z.mod_small by lia. reflexivity. Qed.

Lemma class_face_ok c : class_face c <> NUL /\ class_face c <> SPC /\ nat_of_ascii (class_face c) < 128 /\
  class_face c = match c with Some c => if in_dec ascii_dec c (lit "ouxcdafn") then c else "o"%char | None => "o"%char end.
Proof.
  destruct c as [c|]; [|split; [discriminate|split; [discriminate|split; [apply Nat.ltb_lt; reflexivity|reflexivity]]]]. cbn [class_face].
  assert (E : existsb (Ascii.eqb c) (lit "ouxcdafn") = if in_dec ascii_dec c (lit "ouxcdafn") then true else false).
  { destruct (in_dec ascii_dec c (lit "ouxcdafn")) as [I|I].
    - apply existsb_exists. exists c. split; [exact I|apply Ascii.eqb_refl].
    - destruct (existsb (Ascii.eqb c) (lit "ouxcdafn")) eqn:X; [|reflexivity]. apply existsb_exists in X as (y & Y & Z). apply Ascii.eqb_eq in Z. subst. contradiction. }
  rewrite E. destruct (in_dec ascii_dec c (lit "ouxcdafn")) as [I|I]; [|split; [discriminate|split; [discriminate|split; [apply Nat.ltb_lt; reflexivity|reflexivity]]]].
  cbn [lit list_ascii_of_string In] in I. repeat (destruct I as [<-|I]; [split; [discriminate|split; [discriminate|split; [apply Nat.ltb_lt; reflexivity|reflexivity]]]|]). destruct I.
Qed.
Definition word_face (arg command : bool) (class : bytes) : byte :=
  let has_m := match class with c :: _ => Ascii.eqb c "m" | [] => false end in
  let rest := if has_m then tl class else class in
  if has_m && command && arg then FACE_ARGMATCHER else class_face (hd_error rest).
Lemma word_face_ok arg command class : word_face arg command class <> NUL /\ word_face arg command class <> SPC /\
  nat_of_ascii (word_face arg command class) < 128 /\ class_look arg command class = Face (word_face arg command class).
Proof.
  assert (G : forall c r, class_look arg command (c :: r) = if Ascii.eqb c "m" then class_look arg command ("m"%char :: r)
     else Face (if in_dec ascii_dec c (lit "ouxcdafn") then c else "o"%char)).
  { intros c r. destruct (Ascii.eqb_spec c "m") as [->|N]; [reflexivity|]. unfold class_look.
    destruct c as [[] [] [] [] [] [] [] []]; try reflexivity. contradiction. }
  unfold word_face. cbv zeta. destruct class as [|c r].
  - cbn [andb tl hd_error]. pose proof (class_face_ok None) as (A & B & C & D). split; [exact A|]. split; [exact B|]. split; [exact C|]. reflexivity.
  - rewrite G. destruct (Ascii.eqb c "m").
    + cbn [andb tl]. unfold class_look. destruct (command && arg).
      * split; [discriminate|]. split; [discriminate|]. split; [apply Nat.ltb_lt; reflexivity|]. reflexivity.
      * pose proof (class_face_ok (hd_error r)) as (A & B & C & D). split; [exact A|]. split; [exact B|]. split; [exact C|].
        rewrite D. destruct r; reflexivity.
    + cbn [andb]. pose proof (class_face_ok (Some c)) as (A & B & C & D). cbn [hd_error]. split; [exact A|]. split; [exact B|]. split; [exact C|].
      rewrite D. reflexivity.
Qed.

(** ** A step of a line *)
Lemma line_step C s ms o : inv s -> incl (w_defs s) C -> colored s ms -> op_ok o -> in_line o = true ->
  incl (codes [o]) C -> no_case C -> few C ->
  exists s', step s o = Some s' /\ inv s' /\ incl (w_defs s') C /\ w_len s' = w_len s /\ w_arg s' = w_arg s /\
    colored s' (ms ++ mark_of (w_len s) (w_arg s) o).
Proof.
  intros I INC CO OK IL CI NC FW. destruct o as [n keep arg|start len code ow|start len command class ow|start len second| |]; cbn [in_line] in IL; try discriminate; cbn [step mark_of].
  - destruct OK as [[OK1 OK2] NE]. unfold apply_color. destruct (ensure_ok s code I NE) as (s1 & f & E & I1 & L1 & A1 & F1 & W1 & R). rewrite E.
    assert (IC : In code C) by (apply CI; left; reflexivity).
    destruct R as [(i & d & Ef & Li & Nd & AL & DD)|(_ & _ & FL & NA)].
    2: { exfalso. pose proof (not_full C (w_defs s) code NC FW) as X. destruct I as ((_ & _ & U) & _). specialize (X U INC IC NA). lia. }
    assert (INC1 : incl (w_defs s1) C).
    { destruct DD as [->|(-> & _ & ->)]; [exact INC|]. intros x X. apply in_app_or in X as [X|[<-|[]]]; [apply INC; exact X|exact IC]. }
    assert (d = code) as ->. { apply NC; [|exact IC|exact AL]. apply INC1. eapply nth_error_In; eauto. }
    assert (LI : i < length (w_defs s1)). { assert (nth_error (w_defs s1) i <> None) as Q by congruence. apply nth_error_Some in Q. exact Q. }
    assert (FN : nat_of_ascii f = 128 + i) by (rewrite Ef; apply face_of_nat; unfold face_max in Li; lia).
    assert (F0 : f <> NUL) by (intros ->; change (nat_of_ascii NUL) with 0 in FN; lia).
    assert (F2 : f <> SPC) by (intros ->; change (nat_of_ascii SPC) with 32 in FN; lia).
    destruct (Ascii.eqb_spec f NUL) as [|_]; [contradiction|].
    eexists. split; [reflexivity|]. assert (F3 : nat_of_ascii f < 128 + (if false then 0 else length (w_defs s1))) by (cbn; lia).
    destruct (apply_face_step s1 false (u32 (start - 1)) (u32 len) f ow I1 F0 F3) as (I2 & D2 & L2 & A2 & _). cbv zeta in *.
    split; [exact I2|]. split; [rewrite D2; exact INC1|]. split; [rewrite L2; exact L1|]. split; [rewrite A2; exact A1|].
    replace (Code code) with (looks s1 f) by (rewrite Ef; apply looks_def; [unfold face_max in Li; lia|exact Nd]).
    apply apply_colored; auto.
    + intros p w P. rewrite L1 in P. specialize (CO p w P).
      assert (AP : at_pos s1 w p = at_pos s w p) by (unfold at_pos, layer; rewrite F1, W1; reflexivity). rewrite AP.
      destruct (on_layer ms w p); [|exact CO]. rewrite (looks_more s s1); [exact CO| |].
      * pose proof (at_pos_ok s w p I P) as [_ X]. destruct w; lia.
      * destruct DD as [DD|(_ & _ & DD)]; [exists []; rewrite app_nil_r; exact DD|exists [code]; exact DD].
    + intros p P. unfold covers. cbn [m_from m_count]. rewrite !u32_small by lia. lia.
  - change (classify_word s start len command class ow) with (apply_face s true start len (word_face (w_arg s) command class) ow).
    destruct (word_face_ok (w_arg s) command class) as (A & B & D & E). eexists. split; [reflexivity|].
    assert (F3 : nat_of_ascii (word_face (w_arg s) command class) < 128 + (if true then 0 else length (w_defs s))) by (cbn; lia).
    destruct (apply_face_step s true start len _ ow I A F3) as (I2 & D2 & L2 & A2 & _). cbv zeta in *.
    split; [exact I2|]. split; [rewrite D2; exact INC|]. split; [exact L2|]. split; [exact A2|].
    rewrite E. rewrite <- (looks_std s) by exact D. apply apply_colored; auto.
    intros p P. unfold covers. cbn [m_from m_count]. lia.
  - set (f := (if second then "?" else "!")%char). assert (X : f <> NUL /\ f <> SPC /\ nat_of_ascii f < 128) by (unfold f; destruct second; split; try discriminate; split; try discriminate; apply Nat.ltb_lt; reflexivity).
    destruct X as (A & B & D). eexists. split; [reflexivity|].
    assert (F3 : nat_of_ascii f < 128 + (if false then 0 else length (w_defs s))) by (cbn; lia).
    destruct (apply_face_step s false start len f true I A F3) as (I2 & D2 & L2 & A2 & _). cbv zeta in *.
    split; [exact I2|]. split; [rewrite D2; exact INC|]. split; [exact L2|]. split; [exact A2|].
    rewrite <- (looks_std s) by exact D. apply apply_colored; auto.
    intros p P. unfold covers. cbn [m_from m_count]. lia.
  - set (f := "0"%char). assert (X : f <> NUL /\ f <> SPC /\ nat_of_ascii f < 128) by (unfold f; split; try discriminate; split; try discriminate; apply Nat.ltb_lt; reflexivity).
    destruct X as (A & B & D). eexists. split; [reflexivity|].
    assert (F3 : nat_of_ascii f < 128 + (if false then 0 else length (w_defs s))) by (cbn; lia).
    destruct (apply_face_step s false 0 (N.of_nat (w_len s)) f true I A F3) as (I2 & D2 & L2 & A2 & _). cbv zeta in *.
    split; [exact I2|]. split; [rewrite D2; exact INC|]. split; [exact L2|]. split; [exact A2|].
    rewrite <- (looks_std s) by exact D. apply apply_colored; auto.
    intros p P. unfold covers. cbn [m_from m_count]. lia.
Qed.
Lemma line_run C ops : forall s ms, inv s -> incl (w_defs s) C -> colored s ms -> Forall op_ok ops -> forallb in_line ops = true ->
  incl (codes ops) C -> no_case C -> few C ->
  exists s', run s ops = Some s' /\ inv s' /\ w_len s' = w_len s /\ colored s' (ms ++ flat_map (mark_of (w_len s) (w_arg s)) ops).
Proof.
  induction ops as [|o ops IH]; intros s ms I INC CO OK IL CI NC FW.
  - exists s. split; [reflexivity|]. split; [exact I|]. split; [reflexivity|]. cbn [flat_map]. rewrite app_nil_r. exact CO.
  - pose proof (Forall_inv OK) as OK1. apply Forall_inv_tail in OK. cbn [forallb] in IL. apply andb_true_iff in IL as [IL1 IL2].
    change (codes (o :: ops)) with ((match o with Color _ _ c _ => [c] | _ => [] end) ++ codes ops) in CI.
    assert (C1 : incl (codes [o]) C). { unfold codes. cbn [flat_map]. rewrite app_nil_r. intros x X. apply CI. apply in_or_app. left. exact X. }
    destruct (line_step C s ms o I INC CO OK1 IL1 C1 NC FW) as (s1 & E & I1 & INC1 & L1 & A1 & CO1). cbn [run]. rewrite E.
    destruct (IH s1 (ms ++ mark_of (w_len s) (w_arg s) o) I1 INC1 CO1 OK IL2) as (s2 & R & I2 & L2 & CO2); auto.
    { intros x X. apply CI. apply in_or_app. right. exact X. }
    exists s2. split; [exact R|]. split; [exact I2|]. split; [congruence|]. rewrite L1, A1 in CO2. cbn [flat_map]. rewrite app_assoc. exact CO2.
Qed.

(** finish *)
Lemma nth_map_combine (f w : bytes) : forall p, length f = length w -> p < length f ->
  nth p (map (fun q => if Ascii.eqb (fst q) FACE_SPACE then snd q else fst q) (combine f w)) NUL = if Ascii.eqb (nth p f NUL) FACE_SPACE then nth p w NUL else nth p f NUL.
Proof.
  revert w. induction f as [|x f IH]; intros w p L P; cbn [length] in *; [lia|]. destruct w as [|y w]; [cbn [length] in L; lia|]. cbn [combine map length] in *.
  destruct p as [|p]; cbn [nth fst snd]; [reflexivity|]. apply IH; lia.
Qed.
Lemma finish_inv s : inv s -> inv (finish s) /\ w_defs (finish s) = w_defs s /\ w_len (finish s) = w_len s /\
  forall p, p < w_len s -> get_face (finish s) p = if Ascii.eqb (at_pos s false p) SPC then at_pos s true p else at_pos s false p.
Proof.
  intros (I2 & I3 & I4). unfold finish. unfold arrays_ok in I4.
  destruct (w_faces s) as [f|] eqn:EF; destruct (w_words s) as [w|] eqn:EW; try contradiction.
  - destruct I4 as (P & L1 & L2 & B1 & B2). split; [|split; [reflexivity|split; [reflexivity|]]].
    + split; [exact I2|]. split; [exact I3|]. unfold arrays_ok. cbn [w_faces w_words w_len w_defs]. split; [exact P|].
      split; [rewrite map_length, combine_length; lia|]. split; [exact L2|]. split; [|exact B2].
      apply Forall_forall. intros x X. apply in_map_iff in X as ((a & b) & <- & X). cbn [fst snd].
      unfold bytes_ok in *. rewrite Forall_forall in B1, B2. pose proof (in_combine_l _ _ _ _ X) as Xa. pose proof (in_combine_r _ _ _ _ X) as Xb.
      destruct (Ascii.eqb a FACE_SPACE); [|auto]. specialize (B2 b Xb). split; [tauto|lia].
    + intros p Hp. unfold get_face. cbn [w_len w_faces]. replace (w_len s <=? p) with false by lia. unfold at_pos, layer. rewrite EF, EW.
      apply nth_map_combine; lia.
  - split; [|split; [reflexivity|split; [reflexivity|intros p Hp; lia]]]. split; [exact I2|]. split; [exact I3|].
    unfold arrays_ok. rewrite EF, EW. exact I4.
Qed.

(** Any history *)
Lemma any_step s o : inv s -> op_ok o -> exists s', step s o = Some s' /\ inv s' /\ forall C, incl (w_defs s) C -> incl (codes [o]) C -> incl (w_defs s') C.
Proof.
  intros I OK. destruct o as [n keep arg|start len code ow|start len command class ow|start len second| |]; cbn [step].
  - assert (K : defs_ok (if keep then w_defs s else [])).
    { destruct keep; [destruct I as (K & _); exact K|]. split; [apply Forall_nil|split; [cbn; lia|apply FOP_nil]]. }
    destruct (init_inv n _ arg K) as (s' & E & I' & D & _). exists s'. split; [exact E|]. split; [exact I'|]. intros C H _. rewrite D. destruct keep; [exact H|intros x []].
  - destruct OK as [_ NE]. unfold apply_color. destruct (ensure_ok s code I NE) as (s1 & f & E & I1 & L1 & A1 & F1 & W1 & R). rewrite E.
    destruct R as [(i & d & Ef & Li & Nd & AL & DD)|(-> & -> & _)].
    2: { exists s. split; [reflexivity|]. split; [exact I1|]. intros C H _. exact H. }
    assert (LI : i < length (w_defs s1)). { assert (nth_error (w_defs s1) i <> None) as Q by congruence. apply nth_error_Some in Q. exact Q. }
    assert (FN : nat_of_ascii f = 128 + i) by (rewrite Ef; apply face_of_nat; unfold face_max in Li; lia).
    assert (F0 : f <> NUL) by (intros ->; change (nat_of_ascii NUL) with 0 in FN; lia).
    destruct (Ascii.eqb_spec f NUL) as [|_]; [contradiction|].
    eexists. split; [reflexivity|]. assert (F3 : nat_of_ascii f < 128 + (if false then 0 else length (w_defs s1))) by (cbn; lia).
    destruct (apply_face_step s1 false (u32 (start - 1)) (u32 len) f ow I1 F0 F3) as (I2 & D2 & _). cbv zeta in *. split; [exact I2|].
    intros C H HC. rewrite D2. destruct DD as [->|(_ & _ & ->)]; [exact H|]. intros x X. apply in_app_or in X as [X|[<-|[]]]; [apply H; exact X|]. apply HC. left. reflexivity.
  - change (classify_word s start len command class ow) with (apply_face s true start len (word_face (w_arg s) command class) ow).
    destruct (word_face_ok (w_arg s) command class) as (A & B & D & E). eexists. split; [reflexivity|].
    assert (F3 : nat_of_ascii (word_face (w_arg s) command class) < 128 + (if true then 0 else length (w_defs s))) by (cbn; lia).
    destruct (apply_face_step s true start len _ ow I A F3) as (I2 & D2 & _). cbv zeta in *. split; [exact I2|]. intros C H _. rewrite D2. exact H.
  - set (f := (if second then "?" else "!")%char). assert (X : f <> NUL /\ nat_of_ascii f < 128) by (unfold f; destruct second; split; try discriminate; apply Nat.ltb_lt; reflexivity).
    destruct X as (A & D). eexists. split; [reflexivity|].
    assert (F3 : nat_of_ascii f < 128 + (if false then 0 else length (w_defs s))) by (cbn; lia).
    destruct (apply_face_step s false start len f true I A F3) as (I2 & D2 & _). cbv zeta in *. split; [exact I2|]. intros C H _. rewrite D2. exact H.
  - set (f := "0"%char). assert (X : f <> NUL /\ nat_of_ascii f < 128) by (unfold f; split; try discriminate; apply Nat.ltb_lt; reflexivity).
    destruct X as (A & D). eexists. split; [reflexivity|].
    assert (F3 : nat_of_ascii f < 128 + (if false then 0 else length (w_defs s))) by (cbn; lia).
    destruct (apply_face_step s false 0 (N.of_nat (w_len s)) f true I A F3) as (I2 & D2 & _). cbv zeta in *. split; [exact I2|]. intros C H _. rewrite D2. exact H.
  - eexists. split; [reflexivity|]. destruct (finish_inv s I) as (A & B & _). split; [exact A|]. intros C H _. rewrite B. exact H.
Qed.
Lemma any_run h : forall s, inv s -> Forall op_ok h -> exists s', run s h = Some s' /\ inv s' /\ forall C, incl (w_defs s) C -> incl (codes h) C -> incl (w_defs s') C.
Proof.
  induction h as [|o h IH]; intros s I OK; [exists s; split; [reflexivity|split; [exact I|auto]]|].
  pose proof (Forall_inv OK) as OK1. apply Forall_inv_tail in OK. destruct (any_step s o I OK1) as (s1 & E & I1 & H1). cbn [run]. rewrite E.
  destruct (IH s1 I1 OK) as (s2 & E2 & I2 & H2). exists s2. split; [exact E2|]. split; [exact I2|]. intros C A B.
  change (codes (o :: h)) with ((match o with Color _ _ c _ => [c] | _ => [] end) ++ codes h) in B. apply H2.
  - apply H1; [exact A|]. unfold codes. cbn [flat_map]. rewrite app_nil_r. intros x X. apply B. apply in_or_app. left. exact X.
  - intros x X. apply B. apply in_or_app. right. exact X.
Qed.
Lemma run_app h1 h2 : forall s, run s (h1 ++ h2) = match run s h1 with None => None | Some s' => run s' h2 end.
Proof. induction h1 as [|o h1 IH]; intro s; [reflexivity|]. cbn [app run]. destruct (step s o); [apply IH|reflexivity]. Qed.
Lemma codes_app a b : codes (a ++ b) = codes a ++ codes b.
Proof. unfold codes. apply flat_map_app. Qed.

(** C46: whatever was colored before, each character of a line looks as the last overwriting color over it says, or else
    the first; else so for word classes; else plain.  At most 100 different codes are used. *)
Theorem line_colored h n keep arg ops :
  Forall op_ok (h ++ ops) -> forallb in_line ops = true -> no_case (codes (h ++ ops)) -> few (codes (h ++ ops)) ->
  exists s, run wc0 (h ++ Init n keep arg :: ops ++ [Finish]) = Some s /\
    forall pos, looks s (get_face s pos) = if pos <? n then expected (flat_map (mark_of n arg) ops) pos else Face SPC.
Proof.
  intros OK IL NC FW. apply Forall_app in OK as [OK1 OK2]. destruct (any_run h wc0 inv0 OK1) as (s0 & R0 & I0 & H0). rewrite run_app, R0.
  assert (INC0 : incl (w_defs s0) (codes (h ++ ops))).
  { apply H0; [intros x []|]. rewrite codes_app. intros x X. apply in_or_app. left. exact X. }
  cbn [run step]. assert (K : defs_ok (if keep then w_defs s0 else [])).
  { destruct keep; [destruct I0 as (K & _); exact K|]. split; [apply Forall_nil|split; [cbn; lia|apply FOP_nil]]. }
  destruct (init_inv n _ arg K) as (s1 & E1 & I1 & D1 & L1 & A1 & F1). rewrite E1, run_app.
  assert (INC1 : incl (w_defs s1) (codes (h ++ ops))) by (rewrite D1; destruct keep; [exact INC0|intros x []]).
  assert (CO1 : colored s1 []).
  { intros p w P. cbn. rewrite L1 in P. destruct F1 as [Fa Fb]; [lia|]. unfold at_pos, layer. rewrite Fa, Fb.
    assert (X : nth p (repeat FACE_SPACE n) NUL = SPC). { apply (repeat_spec n FACE_SPACE). apply nth_In. rewrite repeat_length. exact P. }
    destruct w; exact X. }
  destruct (line_run (codes (h ++ ops)) ops s1 [] I1 INC1 CO1 OK2 IL) as (s2 & R2 & I2 & L2 & CO2); auto.
  { rewrite codes_app. intros x X. apply in_or_app. right. exact X. }
  rewrite R2. cbn [run step]. eexists. split; [reflexivity|]. intro pos. destruct (finish_inv s2 I2) as (I3 & D3 & L3 & G3).
  destruct (Nat.ltb_spec pos n) as [P|P].
  - assert (P2 : pos < w_len s2) by congruence. rewrite (G3 pos P2). cbn [app] in CO2. rewrite L1, A1 in CO2.
    pose proof (CO2 pos false P2) as CF. pose proof (CO2 pos true P2) as CW. unfold expected.
    assert (LK : forall g, nat_of_ascii g < 128 + length (w_defs s2) -> looks (finish s2) g = looks s2 g).
    { intros g G. apply looks_more; [exact G|]. exists []. rewrite app_nil_r. exact D3. }
    pose proof (at_pos_ok s2 false pos I2 P2) as [_ OF]. pose proof (at_pos_ok s2 true pos I2 P2) as [_ OW]. cbn beta iota in OF, OW.
    destruct (on_layer (flat_map (mark_of n arg) ops) false pos) as [l|].
    + destruct CF as [CF1 CF2]. destruct (Ascii.eqb_spec (at_pos s2 false pos) SPC) as [E|E].
      * exfalso. apply CF2. rewrite <- CF1, E. reflexivity.
      * rewrite LK by exact OF. exact CF1.
    + rewrite CF. rewrite Ascii.eqb_refl. rewrite LK by lia. destruct (on_layer (flat_map (mark_of n arg) ops) true pos) as [l|]; [exact (proj1 CW)|]. rewrite CW. reflexivity.
  - unfold get_face. rewrite L3, L2, L1. replace (n <=? pos) with true by lia. reflexivity.
Qed.

(** ** Codes and faces *)
Definition kept (o : op) : bool := match o with Init _ keep _ => keep | _ => true end.
Lemma step_defs s o s' : inv s -> op_ok o -> kept o = true -> step s o = Some s' -> exists r, w_defs s' = w_defs s ++ r.
Proof.
  intros I OK K E. destruct o as [n keep arg|start len code ow|start len command class ow|start len second| |]; cbn [step kept] in *.
  - subst keep. destruct I as (D & _). destruct (init_inv n _ arg D) as (s2 & E2 & _ & D2 & _). rewrite E2 in E. injection E as <-. exists []. rewrite app_nil_r. exact D2.
  - destruct OK as [_ NE]. unfold apply_color in E. destruct (ensure_ok s code I NE) as (s1 & f & E1 & I1 & L1 & A1 & F1 & W1 & R). rewrite E1 in E.
    assert (D : exists r, w_defs s1 = w_defs s ++ r).
    { destruct R as [(i & d & _ & _ & _ & _ & DD)|(_ & -> & _)]; [|exists []; rewrite app_nil_r; reflexivity].
      destruct DD as [->|(_ & _ & ->)]; [exists []; rewrite app_nil_r; reflexivity|exists [code]; reflexivity]. }
    destruct (Ascii.eqb f NUL); injection E as <-; exact D.
  - injection E as <-. exists []. rewrite app_nil_r. reflexivity.
  - injection E as <-. exists []. rewrite app_nil_r. reflexivity.
  - injection E as <-. exists []. rewrite app_nil_r. reflexivity.
  - injection E as <-. exists []. rewrite app_nil_r. apply (finish_inv s I).
Qed.
Lemma run_defs h : forall s s', inv s -> Forall op_ok h -> forallb kept h = true -> run s h = Some s' -> exists r, w_defs s' = w_defs s ++ r.
Proof.
  induction h as [|o h IH]; intros s s' I OK K R; cbn [run] in R.
  - injection R as <-. exists []. rewrite app_nil_r. reflexivity.
  - pose proof (Forall_inv OK) as OK1. apply Forall_inv_tail in OK. cbn [forallb] in K. apply andb_true_iff in K as [K1 K2].
    destruct (any_step s o I OK1) as (s1 & E & I1 & _). rewrite E in R. destruct (step_defs s o s1 I OK1 K1 E) as (r1 & D1).
    destruct (IH s1 s' I1 OK K2 R) as (r2 & D2). exists (r1 ++ r2). rewrite D2, D1, app_assoc. reflexivity.
Qed.
Lemma ensure_out s a s1 f : inv s -> a <> [] -> ensure_face s a = Some (s1, f) -> f <> NUL ->
  inv s1 /\ exists i d, i < face_max /\ f = face_of i /\ nth_error (w_defs s1) i = Some d /\ alike d a.
Proof.
  intros I NE E F. destruct (ensure_ok s a I NE) as (s2 & g & E2 & I2 & _ & _ & _ & _ & R). rewrite E in E2. injection E2 as <- <-.
  split; [exact I2|]. destruct R as [(i & d & A & B & C & D & _)|(A & _)]; [|contradiction]. exists i, d. auto.
Qed.
Lemma out_def s i d : i < face_max -> nth_error (w_defs s) i = Some d -> get_face_output s (face_of i) = Some d.
Proof.
  intros L E. unfold face_max in L. unfold get_face_output. rewrite face_of_nat by lia. replace (128 + i <? 128) with false by lia. replace (128 + i - 128) with i by lia. exact E.
Qed.

(** A color keeps its face and is output as it was given (but for letter case), whatever happens later, until the colors
    are dropped; colors get the same face exactly if they are the same but for letter case. *)
Theorem colors_keep_faces h a s s1 f h2 s2 :
  Forall op_ok (h ++ h2) -> a <> [] -> run wc0 h = Some s -> ensure_face s a = Some (s1, f) -> f <> NUL -> forallb kept h2 = true -> run s1 h2 = Some s2 ->
  (exists d, SettingsSpec.alike d a /\ get_face_output s2 f = Some d) /\
  forall b s3 g, b <> [] -> ensure_face s2 b = Some (s3, g) -> g <> NUL -> (f = g <-> SettingsSpec.alike a b).
Proof.
  intros OK NA R0 EA FA K R2. apply Forall_app in OK as [OK1 OK2]. destruct (any_run h wc0 inv0 OK1) as (s' & R0' & I0 & _). rewrite R0 in R0'. injection R0' as <-.
  destruct (ensure_out s a s1 f I0 NA EA FA) as (I1 & i & d & Li & Ef & Nd & AL). destruct (run_defs h2 s1 s2 I1 OK2 K R2) as (r & D2).
  assert (N2 : nth_error (w_defs s2) i = Some d).
  { rewrite D2, nth_error_app1; [exact Nd|]. apply nth_error_Some. congruence. }
  split; [exists d; split; [exact AL|rewrite Ef; apply out_def; auto]|]. intros b s3 g NB EB GB.
  destruct (any_run h2 s1 I1 OK2) as (s2' & R2' & I2 & _). rewrite R2 in R2'. injection R2' as <-.
  destruct (ensure_out s2 b s3 g I2 NB EB GB) as (I3 & j & e & Lj & Eg & Ne & BL).
  assert (N3 : nth_error (w_defs s3) i = Some d).
  { destruct (ensure_ok s2 b I2 NB) as (s4 & g' & E4 & _ & _ & _ & _ & _ & RR). rewrite EB in E4. injection E4 as <- <-.
    destruct RR as [(i' & d' & _ & _ & _ & _ & [DD|(_ & _ & DD)])|(_ & -> & _)]; [rewrite DD; exact N2| |exact N2].
    rewrite DD, nth_error_app1; [exact N2|]. apply nth_error_Some. congruence. }
  split.
  - intros ->. assert (i = j) as ->. { rewrite Ef in Eg. apply (f_equal nat_of_ascii) in Eg. unfold face_max in *. rewrite !face_of_nat in Eg by lia. lia. }
    rewrite N3 in Ne. injection Ne as <-. eapply alike_trans; [apply alike_sym; exact AL|exact BL].
  - intro AB. destruct (Nat.eq_dec i j) as [->|NE]; [congruence|]. exfalso.
    assert (DE : alike d e) by (eapply alike_trans; [exact AL|eapply alike_trans; [exact AB|apply alike_sym; exact BL]]).
    destruct I3 as ((_ & _ & U) & _). clear - U N3 Ne NE DE. revert i j N3 Ne NE. induction U as [|x l F U IH]; intros i j A B NE; [destruct i; discriminate|].
    rewrite Forall_forall in F. destruct i as [|i], j as [|j]; cbn [nth_error] in A, B.
    + congruence.
    + injection A as ->. apply (F e (nth_error_In _ _ B)). exact DE.
    + injection B as ->. apply (F d (nth_error_In _ _ A)). apply alike_sym. exact DE.
    + apply (IH i j A B). congruence.
Qed.

(** A color gets no face exactly if there are 100 others; then nothing changes. *)
Theorem color_ignored h s start len code ow : Forall op_ok h -> run wc0 h = Some s -> code <> [] ->
  ((exists s', ensure_face s code = Some (s', NUL)) <-> length (w_defs s) = 100 /\ forall d, In d (w_defs s) -> ~ SettingsSpec.alike d code) /\
  (length (w_defs s) = 100 -> (forall d, In d (w_defs s) -> ~ SettingsSpec.alike d code) -> apply_color s start len code ow = Some s).
Proof.
  intros OK R NE. destruct (any_run h wc0 inv0 OK) as (s' & R' & I & _). rewrite R in R'. injection R' as <-.
  destruct (ensure_ok s code I NE) as (s1 & f & E & I1 & _ & _ & _ & _ & RR). split; [split|].
  - intros (s2 & E2). rewrite E in E2. injection E2 as <- ->. destruct RR as [(i & d & A & B & _)|(_ & _ & A & B)].
    + exfalso. apply (f_equal nat_of_ascii) in A. unfold face_max in B. rewrite face_of_nat in A by lia. change (nat_of_ascii NUL) with 0 in A. lia.
    + split; [exact A|exact B].
  - intros [L N]. destruct RR as [(i & d & A & B & C & D & [DD|(_ & _ & DD)])|(-> & -> & _)].
    + exfalso. rewrite DD in C. apply (N d (nth_error_In _ _ C)). exact D.
    + exfalso. destruct I1 as ((_ & X & _) & _). rewrite DD, app_length, L in X. cbn [length] in X. unfold face_max in X. lia.
    + exists s. exact E.
  - intros L N. unfold apply_color. rewrite E. destruct RR as [(i & d & A & B & C & D & [DD|(_ & _ & DD)])|(-> & -> & _)].
    + exfalso. rewrite DD in C. apply (N d (nth_error_In _ _ C)). exact D.
    + exfalso. destruct I1 as ((_ & X & _) & _). rewrite DD, app_length, L in X. cbn [length] in X. unfold face_max in X. lia.
    + reflexivity.
Qed.

(** ** Comparing *)
Lemma strncmp_all n : forall a b, length a = n -> length b = n -> Forall (fun c => c <> NUL) a -> (strncmp_eq a b n = true <-> a = b).
Proof.
  induction n as [|n IH]; intros [|x a] [|y b] A B F; cbn [length] in *; try lia; cbn [strncmp_eq]; [tauto|].
  pose proof (Forall_inv F) as F1. apply Forall_inv_tail in F. cbn beta in F1. destruct (Ascii.eqb_spec x y) as [->|NE]; cbn [andb].
  - destruct (Ascii.eqb_spec y NUL) as [|_]; [contradiction|]. cbn [orb]. rewrite IH by (auto; lia). split; intro H; [congruence|]. injection H as ->. reflexivity.
  - split; intro H; [discriminate|]. injection H as -> _. contradiction.
Qed.
Lemma defs_eq_iff a : forall b, defs_eq a b = true <-> a = b.
Proof.
  induction a as [|x a IH]; intros [|y b]; cbn [defs_eq]; try (split; intro H; congruence).
  rewrite andb_true_iff, IH, eqb_bytes_eq. split; intro H; [destruct H as [-> ->]; reflexivity|injection H as -> ->; auto].
Qed.
(** Lines that compare equal look the same, and a line equals itself. *)
Theorem equal_lines h1 h2 s1 s2 : Forall op_ok (h1 ++ h2) -> run wc0 h1 = Some s1 -> run wc0 h2 = Some s2 ->
  equals s1 s1 = true /\ (equals s1 s2 = true -> forall pos, looks s1 (get_face s1 pos) = looks s2 (get_face s2 pos)).
Proof.
  intros OK R1 R2. apply Forall_app in OK as [OK1 OK2]. destruct (any_run h1 wc0 inv0 OK1) as (s' & R' & I1 & _). rewrite R1 in R'. injection R' as <-.
  destruct (any_run h2 wc0 inv0 OK2) as (s' & R' & I2 & _). rewrite R2 in R'. injection R' as <-.
  destruct I1 as (_ & _ & A1). destruct I2 as (_ & _ & A2). unfold arrays_ok in *. unfold equals.
  assert (NN : forall k l, bytes_ok k l -> Forall (fun c => c <> NUL) l) by (intros k l H; eapply Forall_impl; [|exact H]; cbn beta; tauto).
  destruct (w_faces s1) as [f1|] eqn:F1; destruct (w_words s1) as [w1|] eqn:W1; try contradiction.
  - destruct A1 as (P1 & L1 & L1' & B1 & B1'). split.
    + rewrite !Nat.eqb_refl. cbn [andb]. rewrite (proj2 (strncmp_all _ f1 f1 L1 L1 (NN _ _ B1)) eq_refl), (proj2 (strncmp_all _ w1 w1 L1' L1' (NN _ _ B1')) eq_refl).
      cbn [andb]. apply defs_eq_iff. reflexivity.
    + destruct (w_faces s2) as [f2|] eqn:F2; destruct (w_words s2) as [w2|] eqn:W2; try discriminate. destruct A2 as (P2 & L2 & L2' & B2 & B2').
      rewrite !andb_true_iff. intros ((((_ & E1) & E2) & _) & E3). apply Nat.eqb_eq in E1. apply strncmp_all in E2; [|lia|lia|eapply NN; eauto].
      apply defs_eq_iff in E3. intro pos. unfold looks, get_face, get_face_output. rewrite F1, F2, E1, E2, E3. reflexivity.
  - split; [reflexivity|]. destruct (w_faces s2) as [f2|] eqn:F2; destruct (w_words s2) as [w2|] eqn:W2; try discriminate. intros _ pos.
    unfold looks, get_face. rewrite A1, A2. reflexivity.
Qed.

(** ** What does not hold *)
(** Codes that differ in letter case only (any text is accepted) share a face. *)
Theorem letter_case_refuted : exists s, run wc0 [Init 2 false false; Color 1 1 (lit "4:3m") true; Color 2 1 (lit "4:3M") true; Finish] = Some s /\
  looks s (get_face s 1) = Code (lit "4:3m").
Proof. eexists. split; vm_compute; reflexivity. Qed.
(** A negative length colors to the end of the line; so does one before the line none of it. *)
Theorem negative_length_refuted : exists s, run wc0 [Init 3 false false; Color 2 (-1) (lit "7") true; Color 0 2 (lit "1") true; Finish] = Some s /\
  map (fun p => looks s (get_face s p)) [0; 1; 2] = [Face SPC; Code (lit "7"); Code (lit "7")].
Proof. eexists. split; vm_compute; reflexivity. Qed.
(** With an empty code, the next color may read freed memory. *)
Theorem empty_code_refuted : run wc0 [Init 3 false false; Color 1 1 [] true; Color 2 1 (lit "7") true] = None.
Proof. reflexivity. Qed.

(** ** Examples *)
Definition demo : list op :=
  [Word 0 3 true (lit "mc") true; Word 4 2 false (lit "f") true; Color 2 3 (lit "7") true; Color 1 3 (lit "0;1") false; Expansion 5 1 true].
Example ex_demo : Forall op_ok ([Init 9 false true; Color 1 1 (lit "31") true] ++ demo) /\ forallb in_line demo = true /\
  few (codes ([Init 9 false true; Color 1 1 (lit "31") true] ++ demo)) /\ no_case (codes ([Init 9 false true; Color 1 1 (lit "31") true] ++ demo)).
Proof.
  split; [|split; [reflexivity|split; [cbn; unfold few; cbn; lia|]]].
  - unfold demo. cbn [app]. repeat first [apply Forall_nil | apply Forall_cons; [cbn; first [exact Logic.I | split; [lia|discriminate]]|]].
  - intros a b A B AL. cbn in A, B. repeat (destruct A as [<-|A]; [repeat (destruct B as [<-|B]; [first [reflexivity|discriminate AL]|]); destruct B|]). destruct A.
Qed.
Example ex_look : map (expected (flat_map (mark_of 7 true) demo)) [0; 1; 2; 3; 4; 5; 6] =
  [Code (lit "0;1"); Code (lit "7"); Code (lit "7"); Code (lit "7"); Face "f"%char; Face "?"%char; Face SPC] /\
  exists s, run wc0 ([Init 9 false true; Color 1 1 (lit "31") true] ++ Init 7 true true :: demo ++ [Finish]) = Some s /\
   map (fun p => looks s (get_face s p)) [0; 1; 2; 3; 4; 5; 6] = map (expected (flat_map (mark_of 7 true) demo)) [0; 1; 2; 3; 4; 5; 6].
Proof. split; [vm_compute; reflexivity|]. eexists. split; vm_compute; reflexivity. Qed.
Example ex_faces : exists s s1 f s2 g, run wc0 demo = Some s /\ ensure_face s (lit "38;5;1") = Some (s1, f) /\ f <> NUL /\
  run s1 [Init 3 true false; Color 1 1 (lit "4") true] = Some s2 /\ get_face_output s2 f = Some (lit "38;5;1") /\
  option_map snd (ensure_face s2 (lit "38;5;2")) = Some g /\ g <> NUL /\ g <> f.
Proof. eexists _, _, _, _, _. repeat (split; [vm_compute; first [reflexivity|discriminate]|]). discriminate. Qed.

Definition hundred : list op := Init 2 false false :: map (fun i => Color 1 1 (dec (N.of_nat i)) true) (seq 1 100).
Example ex_full : exists s, run wc0 hundred = Some s /\ length (w_defs s) = 100 /\ option_map snd (ensure_face s (lit "101")) = Some NUL /\
  option_map snd (ensure_face s (lit "77")) <> Some NUL /\ looks s (get_face s 0) = Code (lit "100").
Proof. eexists. split; [vm_compute; reflexivity|]. split; [vm_compute; reflexivity|]. split; [vm_compute; reflexivity|]. split; [vm_compute; discriminate|vm_compute; reflexivity]. Qed.
Example ex_equal : forall s1 s2, run wc0 (Init 7 false true :: demo) = Some s1 -> run wc0 (Init 7 false true :: demo ++ [Expansion 5 1 false]) = Some s2 -> equals s1 s2 = false.
Proof. intros s1 s2 A B. vm_compute in A, B. injection A as <-. injection B as <-. vm_compute. reflexivity. Qed.

Print Assumptions line_colored.
Print Assumptions colors_keep_faces.
Print Assumptions color_ignored.
Print Assumptions equal_lines.
Print Assumptions letter_case_refuted.
Print Assumptions negative_length_refuted.
Print Assumptions empty_code_refuted.
