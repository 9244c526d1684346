(** C51: wrapped text. *)
From Verif Require Import Base UtfModel UtfSpec UtfProofs EscModel EscSpec EscProofs WidthModel WcModel WcSpec WcProofs WcProperties EllModel EllSpec EllText EllProperties WrapModel WrapSpec WrapProofs.
Open Scope N_scope.

(** plain text: no control functions, and short enough for one code *)
Definition plain_text (cps : list N) : Prop :=
  Forall scalar cps /\ Forall (fun c => 32 <= c) cps /\ (match cps with c :: _ => c <> 32 /\ ~ (128 <= c <= 159) | [] => True end) /\ N.of_nat (length (bytes_of cps)) < 65536.

Lemma spaces_repeat n x : (match x with 32 :: _ => False | _ => True end) -> spaces (repeat 32 n ++ x) = n.
Proof.
  intro H. induction n as [|n IH]; [|cbn [repeat app spaces]; rewrite IH; reflexivity].
  cbn [repeat app]. destruct x as [|c x]; [reflexivity|]. cbn [spaces]. destruct c as [|p]; [reflexivity|]. do 6 (destruct p as [p|p|]; try reflexivity). contradiction.
Qed.
Lemma bytes_spaces n : bytes_of (repeat 32 n) = repeat 32 n.
Proof. induction n as [|n IH]; [reflexivity|]. cbn [repeat]. change (bytes_of (32 :: repeat 32 n)) with ([32] ++ bytes_of (repeat 32 n)). rewrite IH. reflexivity. Qed.
Lemma enc_head c : scalar c -> c <> 32 -> exists b r, utf8 c = b :: r /\ b <> 32.
Proof.
  intros Hs Hc. unfold utf8. destruct (c <? 128) eqn:E1; [eexists _, _; split; [reflexivity|exact Hc]|]. destruct (c <? 2048) eqn:E2; [eexists _, _; split; [reflexivity|]; lia|]. destruct (c <? 65536) eqn:E3; (eexists _, _; split; [reflexivity|]; lia).
Qed.
Lemma not_space_head c x : scalar c -> c <> 32 -> match bytes_of (c :: x) with 32 :: _ => False | _ => True end.
Proof.
  intros Hs Hc. destruct (enc_head c Hs Hc) as (b & r & E & Hb). change (bytes_of (c :: x)) with (utf8 c ++ bytes_of x). rewrite E. cbn [app].
  destruct b as [|p]; [exact I|]. do 6 (destruct p as [p|p|]; try exact I). congruence.
Qed.
Lemma wrapped_lines ce wcw W l ls : wrapped W l ls -> graphemes ce wcw (text_of l) l -> Forall (fun x => graphemes ce wcw (text_of x) x) ls.
Proof.
  induction 1 as [|line gap rest ls _ _ _ _ _ _ _ IH]; intro G; [constructor|]. constructor.
  - pose proof (clusters_prefix _ _ _ _ _ _ _ G (@length glyph line)) as P. rewrite firstn_app, Nat.sub_diag, firstn_O, app_nil_r, firstn_all in P. exact P.
  - apply IH. rewrite app_assoc in G. exact (gr_app ce wcw _ _ G).
Qed.

Section C51.
Variable ce : bool.
Variable wcw : N -> Z.
(** Plain text after any leading spaces, in which every display character fits and no space is combined with what follows
    it: wrapping ends, and the lines are the display characters in order, each line of at most [W] cells, with only spaces
    left out between lines, broken where the next word would not fit, and within a word only if the line is that word.
    Each line read by itself consists of the same display characters. *)
Theorem c51_wraps n cps l W : plain_text cps -> graphemes ce wcw cps l -> spaced l -> (0 < W)%Z -> Forall (fun g => (onectrl g <= W)%Z) l ->
  exists fuel0 ls, wrapped W l ls /\ Forall (fun x => graphemes ce wcw (text_of x) x) ls /\
    forall fuel, (fuel0 <= fuel)%nat -> wrapper ce wcw fuel (repeat 32 n ++ bytes_of cps) W = Some (match ls with [] => [[]] | _ => map (fun x => bytes_of (text_of x)) ls end).
Proof.
  intros (Fs & F32 & Hh & Hl) G Sp HW Fw. pose proof (graphemes_text ce wcw cps l G) as Et.
  assert (Hskip : forall fuel x, (match scan_all (bytes_of cps) with None => None | Some c => match outer ce wcw (bytes_of cps) W fuel c (mkWr 0 0 0 0 0 []) with None => None | Some r => Some (map (line_text (bytes_of cps)) (match fin_lines r with [] => [(O, 0%Z)] | _ => fin_lines r end)) end end) = x -> wrapper ce wcw fuel (repeat 32 n ++ bytes_of cps) W = x).
  { intros fuel x E. unfold wrapper. rewrite spaces_repeat; [|destruct cps as [|c x']; [exact I|]; apply not_space_head; [exact (Forall_inv Fs)|tauto]]. rewrite skipn_app, repeat_length, Nat.sub_diag, skipn_all2 by (rewrite repeat_length; lia). exact E. }
  destruct cps as [|c0 x0].
  - exists O, []. assert (l = []) by (inversion G as [|u r w e l0 C H E1]; [reflexivity|]; apply app_eq_nil in E1 as [E1 _]; exfalso; exact (cluster_ne _ _ _ _ _ _ _ _ _ C E1)). subst l. split; [constructor|]. split; [constructor|]. intros fuel _. apply Hskip. reflexivity.
  - set (cps := c0 :: x0) in *. assert (K : ok_text [KText cps]).
    { split; [|split; [exact I|]].
      - constructor; [|constructor]. split; [exact Fs|]. split; [exact F32|]. exists c0, x0. split; [reflexivity|tauto].
      - constructor; [|constructor]. exact Hl. }
    assert (Ek : kbytes [KText cps] = bytes_of cps) by (unfold kbytes; cbn [flat_map ktext]; rewrite app_nil_r; reflexivity).
    assert (Es : scan_all (bytes_of cps) = Some [(true, bytes_of cps, O, length (bytes_of cps))]).
    { unfold scan_all, fresh. rewrite <- Ek at 1 3. assert (Hn : (1 < S (length (bytes_of cps)))%nat) by (unfold cps; pose proof (bs_len (c0 :: x0)) as L; cbn [length] in L; change (bs (c0 :: x0)) with (bytes_of (c0 :: x0)) in L; lia).
      exact (scan_tokens wcw [KText cps] K O _ _ _ _ Hn). }
    assert (Gl : good_line ce wcw W l) by (split; [rewrite Et; exact G|]; split; [exact Sp|]; split; [exact Fw|]; rewrite Et; exact Fs).
    assert (Hd : head_solid l).
    { destruct l as [|g l']; [exact I|]. cbn [head_solid]. destruct (is_space g) eqn:E; [|reflexivity]. apply is_space_32 in E. unfold text_of in Et. cbn [map concat] in Et. rewrite E in Et. cbn [app] in Et. injection Et as E0 _. lia. }
    destruct (main ce wcw W HW (bytes_of cps) (Datatypes.S (length l)) l (le_n _) Gl [] O [] ltac:(cbn [bs app]; rewrite Et; reflexivity) Hd) as (fuel0 & r & E & ls & Hw & Em).
    exists fuel0, ls. split; [exact Hw|]. split; [exact (wrapped_lines ce wcw W l ls Hw (proj1 Gl))|]. intros fuel Hf. apply Hskip. rewrite Es. cbn [outer]. rewrite Nat.add_0_l.
    rewrite Et in E. pose proof (inner_mono_le ce wcw W (bytes_of cps) _ fuel0 fuel _ _ r Hf E) as E'. change (bs cps) with (bytes_of cps) in E'. change (length (bs [])) with O in E'. rewrite E'. cbn [map app] in Em.
    f_equal. destruct ls as [|a ls]; [|transitivity (map (line_text (bytes_of cps)) (fin_lines r)); [destruct (fin_lines r); [discriminate Em|reflexivity]|exact Em]]. destruct (fin_lines r); [reflexivity|discriminate Em].
Qed.
End C51.
Print Assumptions c51_wraps.

Definition ex_cps : list N := [97; 98; 99; 32; 32; 20013; 32; 100; 101; 102; 103; 104; 105; 106].
Definition ex_l : list glyph := map (fun c => ([c], std c, false)) ex_cps.
Example c51_ex : plain_text ex_cps /\ graphemes true std ex_cps ex_l /\ spaced ex_l /\ Forall (fun g => (onectrl g <= 6)%Z) ex_l.
Proof.
  split; [|split; [apply plain_graphemes; plain|split]].
  - split; [repeat constructor; unfold scalar; lia|]. split; [repeat constructor; lia|]. split; [unfold ex_cps; lia|vm_compute; reflexivity].
  - repeat constructor; intro H; discriminate H.
  - repeat constructor; vm_compute; discriminate.
Qed.
Example c51_ex_lines : wrapper true std 40 (repeat 32 3 ++ bytes_of ex_cps) 6 = Some (map bytes_of [[97; 98; 99]; [20013]; [100; 101; 102; 103; 104; 105]; [106]]).
Proof. vm_compute. reflexivity. Qed.

(** ** What does not hold *)
(** A character wider than the width: the loop adds empty lines for ever (with assertions it stops). *)
Definition c51_ends : Prop := forall ce wcw t W, (0 < W)%Z -> exists fuel ls, wrapper ce wcw fuel t W = Some ls.
Lemma stuck fuel : forall nx ls, inner true std [228; 184; 173] 1 3 fuel (wreset [228; 184; 173]) (mkWr 0 0 0 nx 0 ls) = None.
Proof.
  induction fuel as [|fuel IH]; intros nx ls; [reflexivity|]. cbn [inner].
  set (w := WcModel.wnext _ _ _ _ _ _). vm_compute in w. subst w. cbv beta iota. cbn [N.eqb orb].
  match goal with |- context [onectrl ?g] => let x := eval vm_compute in (onectrl g) in change (onectrl g) with x end. cbn [r_s r_fits r_word r_next r_cells r_lines]. cbv zeta.
  exact (IH O (push (mkWr 0 0 0 0 0 ls))).
Qed.
Theorem c51_ends_refuted : ~ c51_ends.
Proof.
  intro H. destruct (H true std [228; 184; 173] 1%Z ltac:(lia)) as (fuel & ls & E). unfold wrapper in E. set (c := scan_all _) in E. vm_compute in c. subst c. cbv beta iota in E. cbn [outer spaces skipn Nat.add length] in E. rewrite stuck in E. discriminate.
Qed.
Print Assumptions c51_ends_refuted.
Lemma ex_code_good a : a = [97; 98; 99; 32] \/ a = [97; 98; 99] -> good_text [KText a; KCsi true [49] [] 109; KText [32; 100; 101; 102]].
Proof.
  intro H. split; [|split].
  - repeat apply Forall_cons; try apply Forall_nil.
    + split; [cbn [ktext]; destruct H as [-> | ->]; repeat constructor; unfold scalar; lia|]. split; [destruct H as [-> | ->]; repeat constructor; lia|]. destruct H as [-> | ->]; eexists _, _; (split; [reflexivity|lia]).
    + split; [cbn [ktext intro app]; repeat constructor; unfold scalar; lia|]. split; [repeat constructor; lia|]. split; [constructor|lia].
    + split; [cbn [ktext]; repeat constructor; unfold scalar; lia|]. split; [repeat constructor; lia|]. eexists _, _. split; [reflexivity|lia].
  - cbn [separated ktext intro app]. split; [eexists _, _; split; [reflexivity|lia]|exact I].
  - destruct H as [-> | ->]; repeat constructor.
Qed.
(** With control functions: one is lost, "abc\e[1m def" at 5 has the lines "abc" and "def"; others are cut or repeated *)
Definition c51_codes_kept : Prop := forall ce wcw ks W fuel ls, good_text ks -> (0 < W)%Z -> wrapper ce wcw fuel (enc ks) W = Some ls ->
  filter (fun c => negb (c =? 32)) (concat ls) = filter (fun c => negb (c =? 32)) (enc ks).
Theorem c51_codes_kept_refuted : ~ c51_codes_kept.
Proof.
  intro H. specialize (H true std _ 5%Z 100%nat [[97; 98; 99]; [100; 101; 102]] (ex_code_good [97; 98; 99] (or_intror eq_refl)) ltac:(lia) ltac:(vm_compute; reflexivity)). vm_compute in H. discriminate.
Qed.
Print Assumptions c51_codes_kept_refuted.
