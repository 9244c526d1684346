(** Proofs about wildmatch: the matching itself. *)
From Verif Require Import Base WmModel WmSpec WmProofs.
Local Open Scope N_scope.

(** ** Lengths *)
Lemma next_len p c q : next p = (c, q) -> (length q <= length p)%nat.
Proof. destruct p; cbn [next]; intro H; injection H as <- <-; cbn [length]; lia. Qed.
Lemma skip_stars_len p : (length (skip_stars p) <= length p)%nat.
Proof. induction p as [|c p IH]; cbn [skip_stars]; [lia|]. destruct (c =? 42); cbn [length]; lia. Qed.
Lemma skip_dirs_len fuel : forall prev p prev' p', skip_dirs fuel prev p = (prev', p') -> (length p' <= length p)%nat.
Proof.
  induction fuel as [|fuel IH]; intros prev p prev' p' H; cbn [skip_dirs] in H; [injection H as <- <-; lia|].
  destruct p as [|c [|a [|b r]]]; try (injection H as <- <-; cbn [length]; lia).
  destruct ((c =? 47) && (a =? 42) && (b =? 42)); [|injection H as <- <-; cbn [length]; lia].
  apply IH in H. pose proof (skip_stars_len r). cbn [length]. lia.
Qed.
Lemma range_part_len f test c p ok c' p' ok' : range_part f test c p ok = Some (c', p', ok') -> (length p' <= length p)%nat.
Proof.
  unfold range_part. destruct p as [|d [|c2 r]]; try (intro H; injection H as <- <- <-; lia).
  destruct ((d =? 45) && negb (c2 =? 93)); [|intro H; injection H as <- <- <-; lia].
  destruct ((c2 =? 92) && escape f).
  - destruct (next r) as [e q] eqn:Q. apply next_len in Q. destruct (e =? 0); [discriminate|].
    cbv zeta. destruct (_ <? _)%Z; intro H; injection H as <- <- <-; cbn [length]; lia.
  - destruct (c2 =? 0); [discriminate|].
    cbv zeta. destruct (_ <? _)%Z; intro H; injection H as <- <- <-; cbn [length]; lia.
Qed.
Lemma class_part_len high f test c p ok p' ok' : class_part high f test c p ok = (p', ok') -> (length p' <= length p)%nat.
Proof.
  unfold class_part. cbv zeta. destruct p as [|d q]; [intro H; injection H as <- <-; lia|].
  destruct (_ && _); [|intro H; injection H as <- <-; lia].
  destruct (starts _ _); [intro H; injection H as <- <-; lia|].
  destruct (find _ _) as [[k n]|]; intro H; injection H as <- <-; [|lia].
  rewrite skipn_length. lia.
Qed.
Lemma range_loop_len high f negate test : forall fuel c p ok, (length p + (if (c =? 0)%N then 0 else 1) < fuel)%nat ->
  exists r, range_loop high fuel f negate test c p ok = Some r /\ (forall q, r = RYes q -> (length q <= length p)%nat).
Proof.
  induction fuel as [|fuel IH]; intros c p ok L; [lia|]. cbn [range_loop].
  destruct (if (c =? 92) && escape f then next p else (c, p)) as [c1 p1] eqn:E1.
  assert (L1 : (length p1 <= length p)%nat).
  { destruct ((c =? 92) && escape f); [apply next_len in E1; exact E1|injection E1 as _ <-; apply Nat.le_refl]. }
  destruct (c1 =? 0) eqn:C1; [eexists; split; [reflexivity|discriminate]|].
  assert (C : (c =? 0) = false).
  { destruct (N.eqb_spec c 0) as [->|]; [|reflexivity]. injection E1 as <- <-. discriminate. }
  rewrite C in L.
  destruct ((c1 =? 47) && pathname f); [eexists; split; [reflexivity|discriminate]|].
  destruct (range_part f test c1 p1 ok) as [[[c2 p2] ok2]|] eqn:E2; [|eexists; split; [reflexivity|discriminate]].
  apply range_part_len in E2. destruct (class_part high f test c2 p2 ok2) as [p3 ok3] eqn:E3. apply class_part_len in E3.
  destruct p3 as [|c4 p4]; cbn [next].
  - change (0 =? 93) with false. cbv iota.
    destruct (IH 0 [] ok3) as (r & E & K); [change (0 =? 0) with true; cbn [length]; lia|]. exists r. split; [exact E|]. intros q Q. specialize (K q Q). cbn [length] in K. lia.
  - cbn [length] in E3. destruct (c4 =? 93).
    + destruct (Bool.eqb ok3 negate); eexists; (split; [reflexivity|]); [discriminate|]. intros q Q. injection Q as <-. lia.
    + destruct (IH c4 p4 ok3) as (r & E & K); [destruct (c4 =? 0); lia|]. exists r. split; [exact E|]. intros q Q. specialize (K q Q). lia.
Qed.

(** ** The loops inside *)
Section Loops.
Variable f : flags.
Variable g : text -> option bool.
Fixpoint gen (s : text) : option bool :=
  match s with
  | [] => Some false
  | d :: r => match g s with
              | Some false => if is_slash f d && pathname f then Some false else gen r
              | x => x
              end
  end.
Fixpoint slashes (t : text) : option bool :=
  match t with
  | [] => Some false
  | d :: r => if is_slash f d then match g r with Some false => slashes r | x => x end else slashes r
  end.
Hypothesis def : forall s, exists b, g s = Some b.
Lemma gen_def s : exists b, gen s = Some b.
Proof.
  induction s as [|d r IH]; cbn [gen]; [eauto|]. destruct (def (d :: r)) as [[|] ->]; [eauto|].
  destruct (is_slash f d && pathname f); eauto.
Qed.
Lemma slashes_def s : exists b, slashes s = Some b.
Proof.
  induction s as [|d r IH]; cbn [slashes]; [eauto|]. destruct (is_slash f d); [|exact IH]. destruct (def r) as [[|] ->]; eauto.
Qed.
Lemma gen_true s : gen s = Some true <->
  exists t u, s = t ++ u /\ u <> [] /\ (pathname f = true -> Forall (fun d => ~ slash f d) t) /\ g u = Some true.
Proof.
  induction s as [|d r IH]; cbn [gen].
  - split; [discriminate|]. intros (t & u & E & N0 & _). destruct t; [cbn in E; congruence|discriminate].
  - destruct (def (d :: r)) as [[|] E].
    + rewrite E. split; [|reflexivity]. intros _. exists [], (d :: r). split; [reflexivity|]. split; [discriminate|]. split; [constructor|exact E].
    + rewrite E. split.
      * destruct (is_slash f d && pathname f) eqn:S1; [discriminate|]. intro H. apply IH in H as (t & u & -> & U & F & G).
        exists (d :: t), u. split; [reflexivity|]. split; [exact U|]. split; [|exact G]. intro P. constructor; [|exact (F P)].
        apply slash_not. rewrite P, andb_true_r in S1. exact S1.
      * intros (t & u & E1 & U & F & G). destruct t as [|d' t]; cbn [app] in E1; [subst; congruence|].
        injection E1 as <- ->. assert (S1 : is_slash f d && pathname f = false).
        { destruct (pathname f); [|apply andb_false_r]. specialize (F eq_refl). rewrite andb_true_r. apply slash_not. exact (Forall_inv F). }
        rewrite S1. apply IH. exists t, u. split; [reflexivity|]. split; [exact U|]. split; [|exact G].
        intro P. exact (Forall_inv_tail (F P)).
Qed.
Lemma slashes_true s : slashes s = Some true <-> exists t d u, s = t ++ d :: u /\ slash f d /\ g u = Some true.
Proof.
  induction s as [|d r IH]; cbn [slashes].
  - split; [discriminate|]. intros (t & d & u & E & _). destruct t; discriminate.
  - assert (STEP : (exists t d0 u, d :: r = t ++ d0 :: u /\ slash f d0 /\ g u = Some true) <->
                   (slash f d /\ g r = Some true) \/ (exists t d0 u, r = t ++ d0 :: u /\ slash f d0 /\ g u = Some true)).
    { split.
      - intros (t & d0 & u & E & S1 & G). destruct t as [|x t]; cbn [app] in E; injection E as -> ->; [left; auto|right; eauto 6].
      - intros [[S1 G]|(t & d0 & u & -> & S1 & G)]; [exists [], d, r; auto|exists (d :: t), d0, u; auto]. }
    rewrite STEP, <- IH. destruct (is_slash f d) eqn:S1.
    + apply slash_iff in S1. destruct (def r) as [[|] ->].
      * split; [auto|reflexivity].
      * split; [auto|]. intros [[_ H]|H]; [discriminate|exact H].
    + apply slash_not in S1. tauto.
Qed.
End Loops.
Lemma find_slash_some f s u : find_slash f s = Some u <->
  exists t d r, s = t ++ u /\ u = d :: r /\ slash f d /\ Forall (fun d => ~ slash f d) t.
Proof.
  induction s as [|c s IH]; cbn [find_slash].
  - split; [discriminate|]. intros (t & d & r & E & -> & _). destruct t; discriminate.
  - destruct (is_slash f c) eqn:S1.
    + apply slash_iff in S1. split.
      * intro H. injection H as <-. exists [], c, s. split; [reflexivity|]. split; [reflexivity|]. split; [exact S1|constructor].
      * intros (t & d & r & E & -> & S2 & F). destruct t as [|x t]; cbn [app] in E; [rewrite E; reflexivity|].
        injection E as <- _. exfalso. exact (Forall_inv F S1).
    + apply slash_not in S1. rewrite IH. split.
      * intros (t & d & r & -> & -> & S2 & F). exists (c :: t), d, r. split; [reflexivity|]. split; [reflexivity|]. split; [exact S2|]. constructor; assumption.
      * intros (t & d & r & E & -> & S2 & F). destruct t as [|x t]; cbn [app] in E; injection E as -> ->; [contradiction|].
        exists t, d, r. split; [reflexivity|]. split; [reflexivity|]. split; [exact S2|]. exact (Forall_inv_tail F).
Qed.
Lemma find_slash_none f s : find_slash f s = None <-> Forall (fun d => ~ slash f d) s.
Proof.
  induction s as [|c s IH]; cbn [find_slash]; [split; [constructor|reflexivity]|].
  destruct (is_slash f c) eqn:S1.
  - apply slash_iff in S1. split; [discriminate|]. intro F. exfalso. exact (Forall_inv F S1).
  - apply slash_not in S1. rewrite IH. split; [intro; constructor; assumption|intro F; exact (Forall_inv_tail F)].
Qed.

(** ** One turn of wm *)
Section Wm.
Variable high : class -> N -> bool.
Variable bey : N.
Notation wm := (wm high (Some bey)).

Definition normal k f per start (c : N) (p s : text) : option bool :=
  match s with
  | d :: r => if same f c d then wm k f per (Some c) start (Some d) p r else Some false
  | [] => Some false
  end.
(** Behind the stars *)
Definition star_end k f per (wild : bool) (dot : bool) (start : text) (prev : N) (p2 s : text) : option bool :=
  match (if wild && (peek p2 =? 47) then wm k f per (Some 47) s None (tl p2) s else Some false) with
  | Some false =>
      let general := gen f (fun s => wm k f false (Some 42) s None p2 s) in
      if negb wild && dot then Some false
      else match p2 with
           | [] => if wild && (prev =? 47) then Some true
                   else if pathname f then Some (leading_dir f || match find_slash f s with None => true | Some _ => false end)
                   else Some true
           | c2 :: p3 =>
               if c2 =? 47 then
                 if wild then
                   match find_slash f start with
                   | None => Some false
                   | Some _ => match slashes f (fun r => wm k f per (Some 47) r None p3 r) start with Some false => general s | x => x end
                   end
                 else if pathname f then match find_slash f s with None => Some false | Some s => general s end
                 else general s
               else if wild then Some false
               else general s
           end
  | x => x
  end.
Definition lead f (sv : option N) : bool := match sv with None => true | Some d => pathname f && is_slash f d end.

Lemma wm_step k f per pv start sv p s : wm (S k) f per pv start sv p s =
  (let dot := (peek s =? 46) && per && lead f sv in
   match p with
   | [] => Some ((leading_dir f && is_slash f (peek s)) || match s with [] => true | _ => false end)
   | c :: p1 =>
       if c =? 63 then
         match s with
         | [] => Some false
         | d :: r => if is_slash f d && pathname f then Some false else if dot then Some false else wm k f per (Some c) start (Some d) p1 r
         end
       else if c =? 42 then
         let wild := wildstar f && (peek p1 =? 42) in
         match (if wild then match pv with None => None | Some b => let q := skip_stars p1 in Some (skip_dirs (length q) b q) end
                else Some (0, skip_stars p1)) with
         | None => None
         | Some (prev, p2) => star_end k f per wild dot start prev p2 s
         end
       else if c =? 91 then
         match s with
         | [] => Some false
         | d :: r =>
             if is_slash f d && pathname f then Some false
             else if dot then Some false
             else match rangematch high f p1 d with
                  | None => None
                  | Some RError => normal k f per start 91 p1 r
                  | Some RNo => Some false
                  | Some (RYes q) => wm k f per (Some 93) start (Some d) q r
                  end
         end
       else if (c =? 92) && escape f then
         match p1 with
         | e :: p2 => normal k f per start e p2 s
         | [] => match s with [] => Some false | [_] => Some false | _ => normal k f per start 92 [] s end
         end
       else normal k f per start c p1 s
   end).
Proof. reflexivity. Qed.

Lemma wm_def : forall k f per pv start sv p s, (length p < k)%nat -> pv <> None ->
  exists b, wm k f per pv start sv p s = Some b.
Proof.
  induction k as [|k IH]; intros f per pv start sv p s L PV; [lia|]. rewrite wm_step. cbv zeta.
  assert (NORM : forall c p s, (length p < k)%nat -> exists b, normal k f per start c p s = Some b).
  { intros c p0 s0 L0. unfold normal. destruct s0 as [|d r]; [eauto|]. destruct (same f c d); [|eauto]. apply IH; [exact L0|discriminate]. }
  destruct p as [|c p1]; [eauto|]. cbn [length] in L.
  destruct (c =? 63).
  { destruct s as [|d r]; [eauto|]. destruct (is_slash f d && pathname f); [eauto|]. destruct (_ && _ && _); [eauto|].
    apply IH; [lia|discriminate]. }
  destruct (c =? 42).
  { assert (END : forall wild dot prev p2, (length p2 < k)%nat -> exists b, star_end k f per wild dot start prev p2 s = Some b).
    { intros wild dot prev p2 L2. unfold star_end.
      assert (T : exists b, (if wild && (peek p2 =? 47) then wm k f per (Some 47) s None (tl p2) s else Some false) = Some b).
      { destruct (wild && (peek p2 =? 47)); [|eauto]. apply IH; [|discriminate]. destruct p2; cbn [tl length] in *; lia. }
      destruct T as [[|] ->]; [eauto|]. cbv zeta.
      assert (GD : forall s, exists b, gen f (fun s => wm k f false (Some 42) s None p2 s) s = Some b).
      { apply gen_def. intro s0. apply IH; [exact L2|discriminate]. }
      destruct (negb wild && dot); [eauto|]. destruct p2 as [|c2 p3].
      - destruct (wild && (prev =? 47)); [eauto|]. destruct (pathname f); eauto.
      - destruct (c2 =? 47).
        + destruct wild.
          * destruct (find_slash f start); [|eauto].
            destruct (slashes_def f (fun r => wm k f per (Some 47) r None p3 r)) with (s := start) as [[|] ->]; [|eauto|apply GD].
            intro s0. apply IH; [cbn [length] in L2; lia|discriminate].
          * destruct (pathname f); [|apply GD]. destruct (find_slash f s); [apply GD|eauto].
        + destruct wild; [eauto|apply GD]. }
    destruct (wildstar f && (peek p1 =? 42)).
    - destruct pv as [b|]; [|congruence]. destruct (skip_dirs (length (skip_stars p1)) b (skip_stars p1)) as [prev p2] eqn:E.
      apply skip_dirs_len in E. pose proof (skip_stars_len p1). apply END. lia.
    - pose proof (skip_stars_len p1). apply END. lia. }
  destruct (c =? 91).
  { destruct s as [|d r]; [eauto|]. destruct (is_slash f d && pathname f); [eauto|]. destruct (_ && _ && _); [eauto|].
    unfold rangematch. cbv zeta. destruct (next _) as [c0 q0] eqn:Q.
    match goal with |- context [range_loop high ?n f ?ng ?t c0 q0 false] => destruct (range_loop_len high f ng t n c0 q0 false) as (r0 & -> & K) end.
    { destruct (c0 =? 0); lia. }
    apply next_len in Q. assert (LQ : (length q0 <= length p1)%nat).
    { destruct (_ || _) in Q; [|exact Q]. destruct p1; cbn [tl length] in *; lia. }
    destruct r0 as [| |q]; [apply NORM; lia|eauto|]. specialize (K q eq_refl). apply IH; [lia|discriminate]. }
  destruct ((c =? 92) && escape f).
  { destruct p1 as [|e p2]; [|apply NORM; cbn [length] in L; lia]. destruct s as [|d [|d' r]]; [eauto|eauto|]. apply NORM. cbn [length] in *; lia. }
  apply NORM. lia.
Qed.

(** ** Items *)
Fixpoint drop_stars (ps : list item) : list item := match ps with Star :: r => drop_stars r | _ => ps end.
Definition star_head (ps : list item) : Prop := match ps with Star :: _ => True | _ => False end.
Lemma drop_stars_head ps : ~ star_head (drop_stars ps).
Proof. induction ps as [|[] ps IH]; cbn [drop_stars star_head]; tauto. Qed.

Lemma writes_stars f : forall p ps, writes f elsewhere ps p -> (wildstar f = true -> hd 0 p <> 42) ->
  writes f elsewhere (drop_stars ps) (skip_stars p) /\ hd 0 (skip_stars p) <> 42.
Proof.
  induction p as [|c p IH]; intros ps W NW.
  - inversion W; subst; cbn [drop_stars skip_stars hd]; (split; [constructor|discriminate]).
  - assert (HD : forall q, c <> 42 -> skip_stars (c :: q) = c :: q).
    { intros q C. cbn [skip_stars]. rewrite (proj2 (N.eqb_neq c 42) C). reflexivity. }
    inversion W as [|sl c1 ps1 p1 C0 SP W1|sl c1 ps1 p1 C0 ES W1|sl ps1 p1 W1|sl ps1 p1 NS W1|sl neg es b ps1 p1 WS W1|n WI|sl ps1 p1 n PL WI NS W1]; subst.
    + assert (C : c <> 42) by (intro; subst; apply SP; unfold special; auto).
      rewrite HD by exact C. cbn [drop_stars hd]. split; [exact W|exact C].
    + rewrite HD by discriminate. cbn [drop_stars hd]. split; [exact W|discriminate].
    + rewrite HD by discriminate. cbn [drop_stars hd]. split; [exact W|discriminate].
    + cbn [skip_stars drop_stars]. change (42 =? 42) with true. cbv iota. apply IH; [exact W1|exact NS].
    + rewrite HD by discriminate. cbn [drop_stars hd]. split; [exact W|discriminate].
    + congruence.
Qed.
Lemma in_dirs_drop ps : In Dirs (drop_stars ps) -> In Dirs ps.
Proof. induction ps as [|[] ps IH]; cbn [drop_stars]; auto. intro H. right. auto. Qed.

Lemma matches_lead f ld ld' ps s : matches high f false ld ps s -> matches high f false ld' ps s.
Proof.
  assert (NH : forall l x, ~ hidden false l x) by (intros l x (H & _); discriminate).
  intro H. inversion H; subst; try (econstructor; eauto; fail).
Qed.
Lemma star_iff f per ld ps s : matches high f per ld (Star :: ps) s <->
  ~ hidden per ld s /\ exists t u, s = t ++ u /\ (pathname f = true -> Forall (fun d => ~ slash f d) t) /\ matches high f false false (drop_stars ps) u.
Proof.
  assert (NH : forall l x, ~ hidden false l x) by (intros l x (H & _); discriminate).
  revert per ld s. induction ps as [|i ps IH]; intros per ld s.
  - split.
    + intro H. inversion H as [| | | | |per0 ld0 t ps0 u NHD F M| | |]; subst. split; [exact NHD|]. exists t, u. auto.
    + intros (NHD & t & u & -> & F & M). constructor; assumption.
  - split.
    + intro H. inversion H as [| | | | |per0 ld0 t ps0 u NHD F M| | |]; subst. split; [exact NHD|].
      destruct i; try (exists t, u; auto; fail).
      apply IH in M as (_ & t' & u' & -> & F' & M'). cbn [drop_stars]. exists (t ++ t'), u'. split; [apply app_assoc|]. split; [|exact M'].
      intro P. apply Forall_app. auto.
    + intros (NHD & t & u & -> & F & M). constructor; [exact NHD|exact F|].
      destruct i; try exact M. cbn [drop_stars] in M. apply IH. split; [apply NH|]. exists [], u. split; [reflexivity|]. split; [constructor|exact M].
Qed.
Lemma hidden_iff f per sv s : ((peek s =? 46) && per && lead f sv) = true <-> hidden per (lead f sv) s.
Proof. unfold hidden, peek. rewrite !andb_true_iff, N.eqb_eq. tauto. Qed.
Lemma behind_lead f d : behind f d (lead f (Some d)).
Proof. unfold behind, lead. rewrite andb_true_iff, slash_iff. reflexivity. Qed.
Lemma behind_unique f d l : behind f d l -> l = lead f (Some d).
Proof. intro H. apply eq_true_iff_eq. unfold behind in H. rewrite H. symmetry. apply behind_lead. Qed.

Lemma gen_defined k f p2 : (length p2 < k)%nat -> forall u, exists b, wm k f false (Some 42) u None p2 u = Some b.
Proof. intros L u. apply wm_def; [exact L|discriminate]. Qed.
Definition split_by f qs s : Prop :=
  exists t u, s = t ++ u /\ (pathname f = true -> Forall (fun d => ~ slash f d) t) /\ matches high f false false qs u.
Lemma star_end_sound k f per dot prev start p2 qs s :
  (forall u, wm k f false (Some 42) u None p2 u = Some true -> matches high f false false qs u) ->
  (length p2 < k)%nat -> writes f elsewhere qs p2 ->
  star_end k f per false dot start prev p2 s = Some true -> dot = false /\ split_by f qs s.
Proof.
  intros REC L W. unfold star_end, split_by. cbn [andb negb]. cbv zeta.
  destruct dot; [discriminate|]. intro H. split; [reflexivity|].
  destruct p2 as [|c2 p3].
  - inversion W; subst. destruct (pathname f) eqn:P.
    + destruct (leading_dir f) eqn:LD.
      * destruct (find_slash f s) as [u|] eqn:FS.
        -- apply find_slash_some in FS as (t & d & r & -> & -> & S1 & F). exists t, (d :: r). split; [reflexivity|]. split; [auto|]. constructor; assumption.
        -- apply find_slash_none in FS. exists s, []. split; [symmetry; apply app_nil_r|]. split; [auto|constructor].
      * destruct (find_slash f s) eqn:FS; [discriminate|]. apply find_slash_none in FS.
        exists s, []. split; [symmetry; apply app_nil_r|]. split; [auto|constructor].
    + exists s, []. split; [symmetry; apply app_nil_r|]. split; [discriminate|constructor].
  - assert (G : forall u, gen f (fun s => wm k f false (Some 42) s None (c2 :: p3) s) u = Some true -> split_by f qs u).
    { intros u G. apply (gen_true f _ (gen_defined k f _ L)) in G. destruct G as (t & v & -> & V & F & G). exists t, v. split; [reflexivity|]. split; [exact F|]. apply REC. exact G. }
    destruct (N.eqb_spec c2 47) as [->|C47]; [destruct (pathname f) eqn:P|].
    + destruct (find_slash f s) as [v|] eqn:FS; [|discriminate].
      apply find_slash_some in FS as (t & d & r & -> & -> & S1 & F). apply G in H as (t' & u & E & F' & M).
      destruct t' as [|x t']; [|cbn [app] in E; injection E as -> ->; exfalso; exact (Forall_inv (F' P) S1)].
      cbn [app] in E. subst u. exists t, (d :: r). auto.
    + apply G in H as (t & u & -> & F & M). exists t, u. rewrite P in F. auto.
    + apply G in H. exact H.
Qed.
Lemma star_end_complete k f per prev start p2 qs s :
  (forall u, matches high f false false qs u -> wm k f false (Some 42) u None p2 u = Some true) ->
  (length p2 < k)%nat -> writes f elsewhere qs p2 -> hd 0 p2 <> 42 ->
  split_by f qs s -> star_end k f per false false start prev p2 s = Some true.
Proof.
  intros REC L W HD (t & u & -> & F & M). unfold star_end. cbn [andb negb]. cbv zeta.
  destruct p2 as [|c2 p3].
  - inversion W; subst. destruct (pathname f) eqn:P; [|reflexivity]. specialize (F eq_refl). inversion M; subst.
    + rewrite app_nil_r. apply find_slash_none in F. rewrite F. rewrite orb_true_r. reflexivity.
    + rewrite H. reflexivity.
  - assert (NM : ~ matches high f false false qs []).
    { intro M0. inversion W; subst; cbn [hd] in HD; try congruence; inversion M0. }
    assert (G : forall t v, (pathname f = true -> Forall (fun d => ~ slash f d) t) -> matches high f false false qs v ->
                 gen f (fun s => wm k f false (Some 42) s None (c2 :: p3) s) (t ++ v) = Some true).
    { intros t0 v F0 M0. apply (gen_true f _ (gen_defined k f _ L)). exists t0, v. split; [reflexivity|]. split; [intros ->; exact (NM M0)|].
      split; [exact F0|]. apply REC. exact M0. }
    destruct (N.eqb_spec c2 47) as [->|C47]; [destruct (pathname f) eqn:P|].
    + assert (HEAD : exists d r, u = d :: r /\ slash f d).
      { inversion W as [|sl c1 ps1 p1 C0 SP W1| | | | | |]; subst. inversion M as [| |per0 ld0 ld1 c0 d0 ps0 s0 AL BE M1| | | | | |]; subst. exists d0, s0. split; [reflexivity|].
        destruct AL as [<-|[[_ AL]|[_ AL]]]; [left; reflexivity| |exact AL].
        left. unfold lower_case in AL. change ((65 <=? 47) && (47 <=? 90)) with false in AL. cbv iota in AL.
        destruct ((65 <=? d0) && (d0 <=? 90)) eqn:B; lia. }
      destruct HEAD as (d & r & -> & S1). specialize (F eq_refl).
      assert (E : find_slash f (t ++ d :: r) = Some (d :: r)) by (apply find_slash_some; exists t, d, r; auto).
      rewrite E. apply (G []); [intro; constructor|exact M].
    + apply G; [discriminate|exact M].
    + apply G; [exact F|exact M].
Qed.

Lemma rest_step f k per b start sv n s : wildstar f = true -> b = 47 -> wm (S k) f per (Some b) start sv (42 :: 42 :: repeat 42 n) s = Some true.
Proof.
  intros WS ->. rewrite wm_step. cbv zeta. change (42 =? 63) with false. change (42 =? 42) with true. cbv iota.
  unfold peek at 2. cbn [hd]. rewrite WS. change (42 =? 42) with true. cbn [andb]. cbv iota.
  assert (E : skip_stars (42 :: repeat 42 n) = []).
  { cbn [skip_stars]. change (42 =? 42) with true. cbv iota. induction n as [|n IH]; [reflexivity|]. cbn [repeat skip_stars]. change (42 =? 42) with true. cbv iota. exact IH. }
  rewrite E. reflexivity.
Qed.
Lemma skip_run n q : hd 0 q <> 42 -> skip_stars (repeat 42 n ++ q) = q.
Proof.
  intro H. induction n as [|n IH]; cbn [repeat app skip_stars].
  - destruct q as [|c q]; [reflexivity|]. cbn [hd] in H. cbn [skip_stars]. rewrite (proj2 (N.eqb_neq c 42) H). reflexivity.
  - change (42 =? 42) with true. cbv iota. exact IH.
Qed.
Lemma dirs_step f k per b start sv n p s : wildstar f = true -> ~ (hd 0 p = 42 /\ hd 0 (tl p) = 42) ->
  exists dot prev, wm (S k) f per (Some b) start sv (42 :: 42 :: repeat 42 n ++ 47 :: p) s = star_end k f per true dot start prev (47 :: p) s.
Proof.
  intros WS NS. rewrite wm_step. cbv zeta. change (42 =? 63) with false. change (42 =? 42) with true. cbv iota.
  unfold peek at 2. cbn [hd]. rewrite WS. change (42 =? 42) with true. cbn [andb]. cbv iota.
  assert (E : skip_stars (42 :: repeat 42 n ++ 47 :: p) = 47 :: p).
  { apply (skip_run (S n)). discriminate. }
  rewrite E. cbn [length skip_dirs].
  assert (E2 : (match p with a :: b0 :: r => if (47 =? 47) && (a =? 42) && (b0 =? 42) then skip_dirs (length p) 47 (skip_stars r) else (b, 47 :: p) | _ => (b, 47 :: p) end) = (b, 47 :: p)).
  { destruct p as [|a [|b0 r]]; [reflexivity|reflexivity|]. cbn [hd tl] in NS. change (47 =? 47) with true. cbn [andb].
    destruct (N.eqb_spec a 42); [|reflexivity]. destruct (N.eqb_spec b0 42); [|reflexivity]. exfalso. apply NS. auto. }
  eexists _, b. 
  match goal with |- match ?x with _ => _ end = _ => assert (X : x = Some (b, 47 :: p)) end.
  { exact (f_equal Some E2). }
  rewrite X. reflexivity.
Qed.

(** ** Both directions *)
Definition pv_ok (pl : place) (pv : option N) : Prop := pv <> None /\ (pl = behind_slash -> pv = Some 47).
Lemma pv_after c : pv_ok (after c) (Some c).
Proof. split; [discriminate|]. unfold after. destruct (N.eqb_spec c 47) as [->|]; [reflexivity|discriminate]. Qed.
Lemma pv_else c : pv_ok elsewhere (Some c).
Proof. split; discriminate. Qed.

Lemma wm_sound : forall k f per pv start sv pl ps p s, writes f pl ps p -> (length p < k)%nat -> ~ In Dirs ps -> pv_ok pl pv ->
  wm k f per pv start sv p s = Some true -> matches high f per (lead f sv) ps s.
Proof.
  induction k as [|k IH]; intros f per pv start sv pl ps p s W L ND PV H; [lia|]. rewrite wm_step in H. cbv zeta in H.
  set (dot := (peek s =? 46) && per && lead f sv) in H.
  assert (DOT : dot = false -> ~ hidden per (lead f sv) s).
  { intros D X. apply hidden_iff in X. fold dot in X. congruence. }
  assert (NORM : forall c ps p, writes f (after c) ps p -> (length p < k)%nat -> ~ In Dirs ps ->
            normal k f per start c p s = Some true -> matches high f per (lead f sv) (Lit c :: ps) s).
  { intros c ps0 p0 W0 L0 ND0 H0. unfold normal in H0. destruct s as [|d r]; [discriminate|]. destruct (same f c d) eqn:SM; [|discriminate].
    apply same_iff in SM. apply (M_lit high f _ _ (lead f (Some d))); [exact SM|apply behind_lead|].
    apply (IH f per (Some c) start (Some d) _ ps0 p0 r W0 L0 ND0 (pv_after c) H0). }
  inversion W as [|sl c1 ps1 p1 C0 SP W1|sl c1 ps1 p1 C0 ES W1|sl ps1 p1 W1|sl ps1 p1 NS W1|sl neg es b ps1 p1 WS W1|n WI|sl ps1 p1 n PL WI NS W1]; subst; cbn [length] in L.
  - injection H as H. destruct s as [|d r]; [constructor|]. rewrite orb_false_r in H. apply andb_true_iff in H as [H1 H2].
    apply slash_iff in H2. constructor; assumption.
  - assert (C1 : (c1 =? 63) = false) by (apply N.eqb_neq; intro; subst; apply SP; unfold special; auto).
    assert (C2 : (c1 =? 42) = false) by (apply N.eqb_neq; intro; subst; apply SP; unfold special; auto).
    assert (C3 : (c1 =? 91) = false) by (apply N.eqb_neq; intro; subst; apply SP; unfold special; auto).
    assert (C4 : ((c1 =? 92) && escape f) = false).
    { destruct (N.eqb_spec c1 92) as [->|]; [|reflexivity]. destruct (escape f) eqn:E; [|reflexivity]. exfalso. apply SP. unfold special. auto. }
    rewrite C1, C2, C3, C4 in H. apply (NORM c1 ps1 p1 W1); [lia|intro X; apply ND; right; exact X|exact H].
  - change (92 =? 63) with false in H. change (92 =? 42) with false in H. change (92 =? 91) with false in H. change (92 =? 92) with true in H.
    rewrite ES in H. cbn [andb] in H. apply (NORM c1 ps1 p1 W1); [lia|intro X; apply ND; right; exact X|exact H].
  - change (63 =? 63) with true in H. cbv iota in H. destruct s as [|d r]; [discriminate|].
    destruct (is_slash f d && pathname f) eqn:SL; [discriminate|]. destruct dot; [discriminate|].
    apply (M_any high f _ _ (lead f (Some d))).
    + intros P S1. apply slash_iff in S1. rewrite S1, P in SL. discriminate.
    + apply DOT. reflexivity.
    + apply behind_lead.
    + apply (IH f per (Some 63) start (Some d) _ ps1 p1 r W1); [lia|intro X; apply ND; right; exact X|apply pv_else|exact H].
  - change (42 =? 63) with false in H. change (42 =? 42) with true in H. cbv iota in H.
    assert (NWI : (wildstar f && (peek p1 =? 42)) = false).
    { destruct (wildstar f) eqn:E; [|reflexivity]. apply N.eqb_neq. exact (NS eq_refl). }
    rewrite NWI in H. destruct (writes_stars f p1 ps1 W1 NS) as [W2 HD].
    assert (L2 : (length (skip_stars p1) < k)%nat) by (pose proof (skip_stars_len p1); lia).
    apply (star_end_sound k f per dot 0 start (skip_stars p1) (drop_stars ps1) s) in H; [|clear H|exact L2|exact W2].
    + destruct H as [D X]. apply star_iff. split; [exact (DOT D)|exact X].
    + intros u U. apply (matches_lead f (lead f None)). apply (IH f false (Some 42) u None _ _ _ u W2 L2); [|apply pv_else|exact U].
      intro X. apply ND. right. apply in_dirs_drop. exact X.
  - change (91 =? 63) with false in H. change (91 =? 42) with false in H. change (91 =? 91) with true in H. cbv iota in H.
    destruct s as [|d r]; [discriminate|]. destruct (is_slash f d && pathname f) eqn:SL; [discriminate|]. destruct dot; [discriminate|].
    destruct (rangematch_ok high f neg es b p1 d WS) as [[IN E]|[_ E]]; rewrite E in H; [|discriminate].
    apply (M_set high f _ _ (lead f (Some d))).
    + intros P S1. apply slash_iff in S1. rewrite S1, P in SL. discriminate.
    + apply DOT. reflexivity.
    + exact IN.
    + apply behind_lead.
    + rewrite app_length in L. apply (IH f per (Some 93) start (Some d) _ ps1 p1 r W1); [lia|intro X; apply ND; right; exact X|apply pv_else|exact H].
  - apply M_rest.
  - exfalso. apply ND. left. reflexivity.
Qed.

Lemma wm_complete : forall k f per pv start sv pl ps p s, writes f pl ps p -> (length p < k)%nat -> pv_ok pl pv ->
  (exists pre, start = pre ++ s) ->
  matches high f per (lead f sv) ps s -> wm k f per pv start sv p s = Some true.
Proof.
  induction k as [|k IH]; intros f per pv start sv pl ps p s W L PV (pre & ST) H; [lia|].
  assert (DOT : ~ hidden per (lead f sv) s -> ((peek s =? 46) && per && lead f sv) = false).
  { intro X. destruct ((peek s =? 46) && per && lead f sv) eqn:E; [|reflexivity]. apply hidden_iff in E. contradiction. }
  assert (NORM : forall c ps p, writes f (after c) ps p -> (length p < k)%nat ->
            matches high f per (lead f sv) (Lit c :: ps) s -> normal k f per start c p s = Some true).
  { intros c ps0 p0 W0 L0 H0. inversion H0 as [| |per0 ld0 ld1 c0 d ps2 r AL BE M| | | | | |]; subst. unfold normal.
    apply same_iff in AL. rewrite AL. apply behind_unique in BE. subst ld1.
    apply (IH f per (Some c) _ (Some d) _ ps0 p0 r W0 L0 (pv_after c)); [|exact M]. exists (pre ++ [d]). rewrite <- app_assoc. reflexivity. }
  inversion W as [|sl c1 ps1 p1 C0 SP W1|sl c1 ps1 p1 C0 ES W1|sl ps1 p1 W1|sl ps1 p1 NS W1|sl neg es b ps1 p1 WS W1|n WI|sl ps1 p1 n PL WI NS W1]; subst pl ps p; cbn [length] in L.
  - rewrite wm_step. cbv zeta. inversion H as [|per0 ld0 d r LD SL| | | | | | |]; subst; [rewrite orb_true_r; reflexivity|].
    apply slash_iff in SL. unfold peek. cbn [hd]. rewrite LD, SL. reflexivity.
  - rewrite wm_step. cbv zeta. assert (C1 : (c1 =? 63) = false) by (apply N.eqb_neq; intro; subst; apply SP; unfold special; auto).
    assert (C2 : (c1 =? 42) = false) by (apply N.eqb_neq; intro; subst; apply SP; unfold special; auto).
    assert (C3 : (c1 =? 91) = false) by (apply N.eqb_neq; intro; subst; apply SP; unfold special; auto).
    assert (C4 : ((c1 =? 92) && escape f) = false).
    { destruct (N.eqb_spec c1 92) as [->|]; [|reflexivity]. destruct (escape f) eqn:E; [|reflexivity]. exfalso. apply SP. unfold special. auto. }
    rewrite C1, C2, C3, C4. apply (NORM c1 ps1 p1 W1); [lia|exact H].
  - rewrite wm_step. cbv zeta. change (92 =? 63) with false. change (92 =? 42) with false. change (92 =? 91) with false. change (92 =? 92) with true.
    rewrite ES. cbn [andb]. apply (NORM c1 ps1 p1 W1); [lia|exact H].
  - rewrite wm_step. cbv zeta. change (63 =? 63) with true. cbv iota.
    inversion H as [| | |per0 ld0 ld1 d ps0 r NSL NH BE M| | | | |]; subst per0 ld0 ps0 s.
    assert (SL : is_slash f d && pathname f = false).
    { destruct (pathname f); [|apply andb_false_r]. rewrite andb_true_r. apply slash_not. exact (NSL eq_refl). }
    rewrite SL, (DOT NH). apply behind_unique in BE. subst ld1.
    apply (IH f per (Some 63) start (Some d) _ ps1 p1 r W1); [lia|apply pv_else| |exact M]. exists (pre ++ [d]). rewrite <- app_assoc. exact ST.
  - rewrite wm_step. cbv zeta. change (42 =? 63) with false. change (42 =? 42) with true. cbv iota.
    assert (NWI : (wildstar f && (peek p1 =? 42)) = false).
    { destruct (wildstar f) eqn:E; [|reflexivity]. apply N.eqb_neq. exact (NS eq_refl). }
    rewrite NWI. destruct (writes_stars f p1 ps1 W1 NS) as [W2 HD].
    assert (L2 : (length (skip_stars p1) < k)%nat) by (pose proof (skip_stars_len p1); lia).
    apply star_iff in H as [NH X]. rewrite (DOT NH).
    apply (star_end_complete k f per 0 start (skip_stars p1) (drop_stars ps1) s); [|exact L2|exact W2|exact HD|exact X].
    intros u U. apply (matches_lead f false (lead f None)) in U. apply (IH f false (Some 42) u None _ _ _ u W2 L2); [apply pv_else| |exact U].
    exists []. reflexivity.
  - rewrite wm_step. cbv zeta. change (91 =? 63) with false. change (91 =? 42) with false. change (91 =? 91) with true. cbv iota.
    inversion H as [| | | |per0 ld0 ld1 d neg0 es0 ps0 r NSL NH IN BE M| | | |]; subst per0 ld0 neg0 es0 ps0 s.
    assert (SL : is_slash f d && pathname f = false).
    { destruct (pathname f); [|apply andb_false_r]. rewrite andb_true_r. apply slash_not. exact (NSL eq_refl). }
    rewrite SL, (DOT NH). destruct (rangematch_ok high f neg es b p1 d WS) as [[_ E]|[NI _]]; [|contradiction]. rewrite E.
    apply behind_unique in BE. subst ld1. rewrite app_length in L.
    apply (IH f per (Some 93) start (Some d) _ ps1 p1 r W1); [lia|apply pv_else| |exact M]. exists (pre ++ [d]). rewrite <- app_assoc. exact ST.
  - destruct PV as [_ PV]. rewrite (PV eq_refl). apply rest_step; [exact WI|reflexivity].
  - destruct PV as [PV _]. destruct pv as [b0|]; [|congruence].
    destruct (dirs_step f k per b0 start sv n p1 s WI NS) as (dot & prev & E). rewrite E. unfold star_end.
    unfold peek. cbn [hd tl]. change (47 =? 47) with true. cbn [andb negb]. cbv zeta.
    assert (LP : (length (47%N :: p1) < k)%nat) by (rewrite app_length in L; cbn [length] in *; lia). cbn [length] in LP.
    assert (REC : forall v, matches high f per true ps1 v -> wm k f per (Some 47) v None p1 v = Some true).
    { intros v V. apply (IH f per (Some 47) v None behind_slash ps1 p1 v W1); [lia|split; [discriminate|reflexivity]| |exact V]. exists []. reflexivity. }
    destruct (wm_def k f per (Some 47) s None p1 s) as [[|] FT]; [lia|discriminate|rewrite FT; reflexivity|]. rewrite FT.
    inversion H as [| | | | | | |per0 ld0 ps0 s0 M|per0 ld0 t d ps0 v SD M]; subst.
    + rewrite (REC _ M) in FT. discriminate.
    + destruct (find_slash f (pre ++ t ++ d :: v)) eqn:FS.
      * assert (SS : slashes f (fun r => wm k f per (Some 47) r None p1 r) (pre ++ t ++ d :: v) = Some true).
        { apply slashes_true; [intro s0; apply wm_def; [lia|discriminate]|]. exists (pre ++ t), d, v. rewrite <- app_assoc.
          split; [reflexivity|]. split; [exact SD|]. exact (REC _ M). }
        rewrite SS. reflexivity.
      * apply find_slash_none in FS. rewrite !Forall_app in FS. destruct FS as (_ & _ & FS). exfalso. exact (Forall_inv FS SD).
Qed.

(** Directories at the very beginning of a pattern *)
Lemma wm_dirs_sound k f b p ps n s : wildstar f = true -> writes f behind_slash ps p -> ~ In Dirs ps -> ~ (hd 0 p = 42 /\ hd 0 (tl p) = 42) ->
  (S (length p) < k)%nat ->
  wm (S k) f false (Some b) s None (42 :: 42 :: repeat 42 n ++ 47 :: p) s = Some true -> matches high f false true (Dirs :: ps) s.
Proof.
  intros WI W ND NS L H. destruct (dirs_step f k false b s None n p s WI NS) as (dot & prev & E). rewrite E in H. unfold star_end in H.
  unfold peek in H. cbn [hd tl] in H. change (47 =? 47) with true in H. cbn [andb negb] in H. cbv zeta in H.
  assert (PV : pv_ok behind_slash (Some 47)) by (split; [discriminate|reflexivity]).
  assert (REC : forall v, wm k f false (Some 47) v None p v = Some true -> matches high f false true ps v).
  { intros v V. apply (wm_sound k f false (Some 47) v None behind_slash ps p v W); [lia|exact ND|exact PV|exact V]. }
  destruct (wm_def k f false (Some 47) s None p s) as [[|] FT]; [lia|discriminate|apply M_here; apply REC; exact FT|]. rewrite FT in H.
  destruct (find_slash f s) eqn:FS; [|discriminate].
  assert (DEF : forall r, exists b, wm k f false (Some 47) r None p r = Some b) by (intro r; apply wm_def; [lia|discriminate]).
  destruct (slashes_def f _ DEF s) as [[|] SS].
  - apply (slashes_true f _ DEF) in SS as (t & d & u & -> & SD & U). apply M_dirs; [exact SD|]. apply REC. exact U.
  - rewrite SS in H. assert (LP : (length (47%N :: p) < k)%nat) by (cbn [length]; lia).
    apply (gen_true f _ (gen_defined k f _ LP)) in H as (t & u & -> & _ & _ & U).
    assert (W2 : writes f elsewhere (Lit 47 :: ps) (47 :: p)).
    { apply P_lit; [discriminate| |exact W]. unfold special. intros [X|[X|[X|[X _]]]]; discriminate. }
    apply (wm_sound k f false (Some 42) u None elsewhere _ _ u W2 LP) in U; [| |apply pv_else].
    + inversion U as [| |per0 ld0 ld1 c0 d ps2 r AL BE M| | | | | |]; subst. apply M_dirs; [|exact (matches_lead f ld1 true ps r M)].
      destruct AL as [<-|[[_ AL]|[_ AL]]]; [left; reflexivity| |exact AL].
      left. unfold lower_case in AL. change ((65 <=? 47) && (47 <=? 90)) with false in AL. cbv iota in AL.
      destruct ((65 <=? d) && (d <=? 90)) eqn:B; lia.
    + intros [X|X]; [discriminate|exact (ND X)].
Qed.
End Wm.

(** How patterns are written depends on two flags only. *)
Lemma elems_flags f g first es t : escape f = escape g -> writes_elems f first es t -> writes_elems g first es t.
Proof.
  intros E. assert (O : forall c b, writes_one f c b -> writes_one g c b) by (unfold writes_one; rewrite E; auto).
  induction 1; [apply E_end|apply E_one; auto|apply E_range; auto|apply E_class; assumption].
Qed.
Lemma writes_flags f g pl ps p : escape f = escape g -> wildstar f = wildstar g -> writes f pl ps p -> writes g pl ps p.
Proof.
  intros E W. induction 1.
  - apply P_end.
  - apply P_lit; [assumption| |assumption]. unfold special in *. rewrite <- E. assumption.
  - apply P_escaped; [assumption|congruence|assumption].
  - apply P_any. assumption.
  - apply P_star; [rewrite <- W; assumption|assumption].
  - apply P_set; [|assumption]. unfold writes_set in *. destruct neg.
    + destruct H as (c & t & A & B & C). exists c, t. split; [exact A|]. split; [exact B|]. exact (elems_flags f g _ _ _ E C).
    + destruct H as (A & B). split; [exact (elems_flags f g _ _ _ E A)|exact B].
  - apply P_rest. congruence.
  - apply P_dirs; [assumption|congruence|assumption|assumption].
Qed.

Lemma reads f : forall k pl p, (length p <= k)%nat -> Forall (fun c => c <> 0 /\ c <> 91) p -> (forall a b, p <> a ++ 42 :: 42 :: b) -> (forall a, p <> a ++ [92]) ->
  exists ps, writes f pl ps p /\ ~ In Dirs ps /\ ~ In Rest ps.
Proof.
  induction k as [|k IH]; intros pl p L F S2 B.
  - destruct p; [|cbn [length] in L; lia]. exists []. split; [apply P_end|]. split; intros [].
  - destruct p as [|c p]; [exists []; split; [apply P_end|]; split; intros []|]. cbn [length] in L.
    pose proof (Forall_inv F) as [C0 C91]. pose proof (Forall_inv_tail F) as F'.
    assert (S2' : forall a b, p <> a ++ 42 :: 42 :: b) by (intros a b ->; exact (S2 (c :: a) b eq_refl)).
    assert (B' : forall a, p <> a ++ [92]) by (intros a ->; exact (B (c :: a) eq_refl)).
    assert (ONE : forall i pl', i <> Dirs -> i <> Rest -> (forall ps, writes f pl' ps p -> writes f pl (i :: ps) (c :: p)) -> exists ps, writes f pl ps (c :: p) /\ ~ In Dirs ps /\ ~ In Rest ps).
    { intros i pl' N1 N2 K. destruct (IH pl' p) as (ps & W & A1 & A2); [lia|exact F'|exact S2'|exact B'|]. exists (i :: ps). split; [exact (K ps W)|].
      split; intros [X|X]; auto. }
    destruct (N.eq_dec c 63) as [->|C63]; [apply (ONE Any elsewhere); [discriminate|discriminate|intros; apply P_any; assumption]|].
    destruct (N.eq_dec c 42) as [->|C42].
    { apply (ONE Star elsewhere); [discriminate|discriminate|]. intros ps W. apply P_star; [|exact W]. intros _ X. destruct p as [|c p]; [discriminate|]. cbn [hd] in X. subst. exact (S2 [] p eq_refl). }
    destruct (N.eq_dec c 92) as [->|C92]; [destruct (escape f) eqn:E|].
    + destruct p as [|d p]; [exfalso; exact (B [] eq_refl)|]. cbn [length] in L.
      destruct (IH (after d) p) as (ps & W & A1 & A2); [lia|exact (Forall_inv_tail F')| | |].
      * intros a b ->. exact (S2' (d :: a) b eq_refl).
      * intros a ->. exact (B' (d :: a) eq_refl).
      * exists (Lit d :: ps). split; [apply P_escaped; [exact (proj1 (Forall_inv F'))|exact E|exact W]|]. split; intros [X|X]; auto; discriminate.
    + apply (ONE (Lit 92) (after 92)); [discriminate|discriminate|]. intros ps W. apply P_lit; [discriminate| |exact W]. unfold special. rewrite E. intros [X|[X|[X|[_ X]]]]; discriminate.
    + apply (ONE (Lit c) (after c)); [discriminate|discriminate|]. intros ps W. apply P_lit; [exact C0| |exact W]. unfold special. intuition.
Qed.
