(** Every operation on the streams is the operation on files. *)
From Verif Require Import Base SsModel SsSpec SsProofs SsRead.
Open Scope nat_scope.

Lemma beq_eq a : forall b, beq a b = true <-> a = b.
Proof. induction a as [|x a IH]; intros [|y b]; cbn [beq]; try (split; congruence). rewrite andb_true_iff, IH, N.eqb_eq. split; [intros [-> ->]; reflexivity|intro H; injection H; auto]. Qed.
(** the modes *)
Definition mode_flags (x : how * bool * bool * bool * bool) (text : bool) : flags * bool :=
  let '(hw, made, rd, wr, ap) := x in (mkF made wr rd ap (match hw with Refuse => true | _ => false end) (negb text), match hw with Keep => false | _ => true end).
Ltac smp := cbn [N.eqb Pos.eqb andb orb negb beq eat last removelast mode_flags].
Ltac eqs := smp; repeat (match goal with
  | |- context [(?x =? ?y)%N] => is_var x; let E := fresh in destruct (x =? y)%N eqn:E; [apply N.eqb_eq in E; subst x|]
  end; smp); reflexivity.
Lemma modes m : parse_mode m = match split_mode m with (Some x, text) => Some (mode_flags x text) | (None, _) => None end.
Proof.
  assert (Hlong : forall a b c d (l : bytes), mode_of (a :: b :: c :: d :: l) = None). { intros. unfold mode_of. cbn [beq]. rewrite !andb_false_r. reflexivity. }
  unfold split_mode. destruct m as [|a m]; [reflexivity|]. unfold parse_mode.
  destruct m as [|b [|c [|d [|e m]]]].
  - unfold mode_of. eqs.
  - unfold mode_of. eqs.
  - unfold mode_of. eqs.
  - rewrite Hlong. unfold mode_of. eqs.
  - rewrite Hlong. assert (Hr : mode_of (removelast (a :: b :: c :: d :: e :: m)) = None). { cbn [removelast]. destruct m; apply Hlong. }
    assert (G : match (if (last (a :: b :: c :: d :: e :: m) 0 =? 98)%N then (mode_of (removelast (a :: b :: c :: d :: e :: m)), false) else (None, true)) with (Some x, text) => Some (mode_flags x text) | (None, _) => None end = None) by (rewrite Hr; destruct (last (a :: b :: c :: d :: e :: m) 0 =? 98)%N; reflexivity). rewrite G.
    destruct (negb ((a =? 114) || (a =? 119) || (a =? 97))%N); [reflexivity|]. unfold eat. destruct (b =? 43)%N; destruct (a =? 119)%N; repeat match goal with |- context [if (?x =? ?y)%N then _ else _] => destruct (x =? y)%N end; reflexivity.
Qed.

Section Sim.
Variables MX B K : nat.
Variable junk : nat -> N.
Hypothesis HB : 2 <= B.
Hypothesis HM : B <= MX.

Definition winv (w : world) : Prop := Forall (fun x => inv MX (snd x)) (w_streams w).
Definition absf (x : bytes * stream) : bytes * bytes := (fst x, file (snd x)).
Definition abs (w : world) : files := mkFs (map absf (w_streams w)) (map conv (w_handles w)).

Lemma find_abs name l : forall n, find_file n name (map absf l) = find_stream n name l.
Proof. induction l as [|[x s] l IH]; intro n; [reflexivity|]. cbn [map find_file absf fst find_stream]. destruct (beq x name); [reflexivity|apply IH]. Qed.
Lemma set_nth_map {X Y} (f : X -> Y) x l : forall i, set_nth i (f x) (map f l) = map f (set_nth i x l).
Proof. induction l as [|y l IH]; intros [|i]; cbn [map set_nth]; [reflexivity|reflexivity|reflexivity|]. f_equal. apply IH. Qed.
Lemma set_nth_forall {X} (P : X -> Prop) x l : forall i, P x -> Forall P l -> Forall P (set_nth i x l).
Proof. induction l as [|y l IH]; intros [|i] Hx H; cbn [set_nth]; try exact H; inversion H; subst; apply Forall_cons; auto. Qed.
Lemma inv_none : inv MX no_data. Proof. left. split; reflexivity. Qed.

Lemma open_ok name mode w : winv w -> let '(w', r) := do_open name mode w in winv w' /\ f_open name mode (abs w) = (abs w', r).
Proof.
  intro Hw. unfold do_open, f_open. rewrite modes. destruct name as [|c name]; [auto|]. set (nm := c :: name).
  destruct (split_mode mode) as [[x|] text]; [|auto]. destruct x as [[[[hw made] rd] wr] ap]. cbn [mode_flags]. cbn [fs_files abs fs_handles]. rewrite find_abs, !map_length.
  assert (Hh : forall j, map conv (w_handles w) ++ [mkFh (Some j) rd wr ap text 0] = map conv (w_handles w ++ [mkH (Some j) (mkF made wr rd ap (match hw with Refuse => true | _ => false end) (negb text)) 0])).
  { intro j. rewrite map_app. cbn [map]. unfold conv, text_mode. cbn [h_stream h_flags f_read f_write f_append h_off f_binary]. rewrite negb_involutive. reflexivity. }
  destruct (find_stream 0 nm (w_streams w)) as [i|] eqn:Ef; cbn [f_only f_create].
  - destruct hw.
    + split; [exact Hw|]. rewrite Hh. reflexivity.
    + rewrite nth_error_map. destruct (nth_error (w_streams w) i) as [[n s]|] eqn:En; cbn [option_map absf fst].
      * split; [apply set_nth_forall; [apply inv_none|exact Hw]|]. unfold abs. cbn [w_streams w_handles]. rewrite Hh, <- set_nth_map. reflexivity.
      * split; [exact Hw|]. rewrite Hh. reflexivity.
    + auto.
  - destruct made; [|auto]. split.
    + unfold winv. cbn [w_streams]. apply Forall_app. split; [exact Hw|]. apply Forall_cons; [apply inv_none|apply Forall_nil].
    + unfold abs. cbn [w_streams w_handles]. rewrite Hh, (map_app absf). reflexivity.
Qed.
(** an operation on a handle *)
Lemma handle_ok hi w f g (P : fhandle -> bytes -> Prop) : winv w -> on hi (abs w) P ->
  (forall h si name s, nth_error (w_handles w) hi = Some h -> inv MX s -> P (conv h) (file s) -> exists s' h' r, f h si name s = Some (s', h', r) /\ inv MX s' /\ g (conv h) (file s) = (file s', conv h', r)) ->
  exists w' r, with_handle hi w f = Some (w', r) /\ winv w' /\ on_handle hi (abs w) g = (abs w', r).
Proof.
  intros Hw Hp Hf. unfold with_handle, on_handle, on in *. cbn [abs fs_handles fs_files] in *. rewrite nth_error_map in *. destruct (nth_error (w_handles w) hi) as [h|] eqn:Eh; cbn [option_map] in *; [|eauto].
  change (fh_file (conv h)) with (h_stream h) in *. destruct (h_stream h) as [si|] eqn:Es; [|eauto]. rewrite nth_error_map in *. destruct (nth_error (w_streams w) si) as [[name s]|] eqn:En; cbn [option_map absf fst snd] in *; [|eauto].
  assert (Hi : inv MX s) by (unfold winv in Hw; rewrite Forall_forall in Hw; exact (Hw (name, s) (nth_error_In _ _ En))).
  destruct (Hf h si name s eq_refl Hi Hp) as (s' & h' & r & E & I' & G). rewrite E, G. eexists _, r. split; [reflexivity|]. split; [apply set_nth_forall; [exact I'|exact Hw]|]. unfold abs. cbn [w_streams w_handles]. rewrite <- !set_nth_map. reflexivity.
Qed.
Lemma on_true hi w : on hi w (fun _ _ => True).
Proof. unfold on. destruct (nth_error (fs_handles w) hi) as [h|]; [|exact Logic.I]. destruct (fh_file h) as [i|]; [|exact Logic.I]. destruct (nth_error (fs_files w) i) as [[n f]|]; exact Logic.I. Qed.

Theorem step_ok o w : winv w -> fine B o (abs w) -> exists w' r, step MX B K junk o w = Some (w', r) /\ winv w' /\ fstep MX o (abs w) = (abs w', r).
Proof.
  intros Hw Hf. destruct o as [name mode|hi strs|hi fs|hi wh z|hi|hi]; cbn [step fstep fine] in *.
  - pose proof (open_ok name mode w Hw) as H. destruct (do_open name mode w) as [w' r]. eauto.
  - apply (handle_ok hi w _ _ _ Hw Hf). intros h si name s _ Hi Hp. cbn [conv fh_write fh_append fh_pos fh_text] in *. destruct (f_write (h_flags h)); [|exists s, h, Failed; auto].
    rewrite (file_len MX s Hi) in Hp. destruct (write_all_ok MX B K junk HB HM (text_mode h) (f_append (h_flags h)) strs (h_off h) s Hi (Hp eq_refl)) as (s' & off & ok & E & I' & G). rewrite E, G. exists s', (at_off off h), (if ok then Done else Failed). auto.
  - apply (handle_ok hi w _ _ _ Hw Hf). intros h si name s _ Hi Hp. change (fh_read (conv h)) with (f_read (h_flags h)) in *. destruct (f_read (h_flags h)); [|exists s, h, Failed; auto]. specialize (Hp eq_refl).
    rewrite (read_fmts_ok MX B HB HM _ h s Hi Hp). destruct (f_read_fmts _ (conv h) (file s)) as [r p]. exists s, (at_off p h), (Got r). auto.
  - apply (handle_ok hi w _ _ _ Hw Hf). intros h si name s _ Hi Hp. exists s, (at_off (seek_to MX wh z h s) h), (Pos (seek_to MX wh z h s)). split; [reflexivity|]. split; [exact Hi|]. unfold f_seek, seek_to. cbn [fh_pos conv] in *. rewrite (file_len MX s Hi) in *.
    set (base := match wh with Set_ => 0 | Cur => h_off h | End_ => s_size s end) in *. cbv zeta. replace (Z.of_nat base + z <? 0)%Z with false by lia.
    assert (E : Nat.min (Z.to_nat (Z.of_nat base + z)) MX = if (Z.of_nat MX <? Z.of_nat base + z)%Z then MX else Z.to_nat (Z.of_nat base + z)) by (destruct (Z.of_nat MX <? Z.of_nat base + z)%Z eqn:X; lia). rewrite E. reflexivity.
  - apply (handle_ok hi w _ _ _ Hw (on_true hi (abs w))). intros h si name s _ Hi _. cbn [conv fh_write fh_pos]. destruct (f_write (h_flags h)); [|exists s, h, Done; auto].
    exists (s_truncate (h_off h) s), h, Done. split; [reflexivity|]. unfold s_truncate. destruct (h_off h <? s_size s) eqn:E.
    + split; [unfold inv in *; cbn [s_size s_cap s_data] in *; unfold s_cap in *; cbn [s_data] in *; lia|]. unfold file. cbn [s_size s_data]. rewrite firstn_firstn, Nat.min_l by lia. reflexivity.
    + split; [exact Hi|]. rewrite firstn_all2 by (rewrite (file_len MX s Hi); lia). reflexivity.
  - apply (handle_ok hi w _ _ _ Hw (on_true hi (abs w))). intros h si name s _ Hi _. exists s, (mkH None (h_flags h) (h_off h)), Done. auto.
Qed.
Theorem run_ok ops : forall w, winv w -> fine_run MX B ops (abs w) -> exists w' rs, run MX B K junk ops w = Some (w', rs) /\ winv w' /\ frun MX ops (abs w) = (abs w', rs).
Proof.
  induction ops as [|o ops IH]; intros w Hw Hf; cbn [run frun fine_run] in *; [eauto|]. destruct Hf as [H1 H2]. destruct (step_ok o w Hw H1) as (w1 & r & E & W1 & G). rewrite E, G in *. cbn [fst] in H2. destruct (IH w1 W1 H2) as (w2 & rs & E2 & W2 & G2). rewrite E2, G2. eauto.
Qed.
Lemma start_winv : winv start. Proof. apply Forall_nil. Qed.

(** no operation, whatever it is, has an access outside memory *)
Lemma handle_safe hi w (f : handle -> nat -> bytes -> stream -> option (stream * handle * res)) : winv w ->
  (forall h si name s, inv MX s -> exists s' h' r, f h si name s = Some (s', h', r) /\ inv MX s') -> exists w' r, with_handle hi w f = Some (w', r) /\ winv w'.
Proof.
  intros Hw Hf. unfold with_handle. destruct (nth_error (w_handles w) hi) as [h|]; [|eauto]. destruct (h_stream h) as [si|]; [|eauto]. destruct (nth_error (w_streams w) si) as [[name s]|] eqn:En; [|eauto].
  assert (Hi : inv MX s) by (unfold winv in Hw; rewrite Forall_forall in Hw; exact (Hw (name, s) (nth_error_In _ _ En))). destruct (Hf h si name s Hi) as (s' & h' & r & E & I'). rewrite E. eexists _, r. split; [reflexivity|]. apply set_nth_forall; [exact I'|exact Hw].
Qed.
Lemma truncate_inv off s : inv MX s -> inv MX (s_truncate off s).
Proof. intro Hi. unfold s_truncate. destruct (off <? s_size s) eqn:E; [|exact Hi]. unfold inv, s_cap in *. cbn [s_size s_data]. lia. Qed.
Lemma step_safe o w : winv w -> exists w' r, step MX B K junk o w = Some (w', r) /\ winv w'.
Proof.
  intro Hw. destruct o as [name mode|hi strs|hi fs|hi wh z|hi|hi]; cbn [step].
  - pose proof (open_ok name mode w Hw) as H. destruct (do_open name mode w) as [w' r]. destruct H. eauto.
  - apply handle_safe; [exact Hw|]. intros h si name s Hi. destruct (f_write (h_flags h)); [|eauto 10]. destruct (write_all_safe MX B K junk HB HM (text_mode h) (f_append (h_flags h)) strs (h_off h) s Hi) as (s' & off & ok & E & I'). rewrite E. eauto 10.
  - apply handle_safe; [exact Hw|]. intros h si name s Hi. destruct (f_read (h_flags h)); [|eauto 10]. destruct (read_fmts MX B _ h s) as [r off]. eauto 10.
  - apply handle_safe; [exact Hw|]. intros h si name s Hi. eauto 10.
  - apply handle_safe; [exact Hw|]. intros h si name s Hi. exists (if f_write (h_flags h) then s_truncate (h_off h) s else s), h, Done. split; [reflexivity|]. destruct (f_write (h_flags h)); [apply truncate_inv|]; exact Hi.
  - apply handle_safe; [exact Hw|]. intros h si name s Hi. eauto 10.
Qed.
Lemma run_safe ops : forall w, winv w -> exists w' rs, run MX B K junk ops w = Some (w', rs) /\ winv w'.
Proof. induction ops as [|o ops IH]; intros w Hw; cbn [run]; [eauto|]. destruct (step_safe o w Hw) as (w1 & r & E & W1). rewrite E. destruct (IH w1 W1) as (w2 & rs & E2 & W2). rewrite E2. eauto. Qed.
End Sim.
