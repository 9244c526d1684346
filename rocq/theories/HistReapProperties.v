(** Properties of reaping and of time stamps: C10-C14. *)
From Verif Require Import Base HistFileModel HistSpec HistFileProofs HistLines HistFindProofs HistDbModel HistDbSpec
  HistDbProofs HistDbProperties HistCompactSpec HistCompactProofs HistWorldModel HistReapSpec HistReapProofs.

(** C10: reaping appends the session's entries to the master entries the session had not removed. *)
Theorem c10_reap_merges : forall (G T : bytes) m l r,
  1 < length G -> 51 <= length T ->
  wf_master (length G) m -> terminated l -> wf_rem r -> removals_at_lines m r ->
  exists m', reap G T (mkR m (Some l) r) = mkR m' None None /\
    map v_text (visible none_removed m') = map v_text (not_removed m r) ++ map v_text (visible none_removed l) /\
    (no_dangling m -> map shown_as (visible none_removed m') =
       map shown_as (not_removed m r) ++ map shown_as (visible none_removed l)).
Proof. intros G T m l r HG HT. apply reap_ok; auto. Qed.
Print Assumptions c10_reap_merges.

(** C11: after any number of crashed reaps, each after any number of file operations, a complete reap leaves every
    unremoved master entry, followed by a list that contains the session's entries in order. *)
Theorem c11_crash_loses_nothing : forall (G T : bytes) ks m l r,
  1 < length G -> 51 <= length T ->
  wf_master (length G) m -> terminated l -> lines_fit (length G) (lines_of l) -> wf_rem r -> removals_at_lines m r ->
  exists m' ys, reap G T (fold_left (fun s k => reap_crash G T k s) ks (mkR m (Some l) r)) = mkR m' None None /\
    map v_text (visible none_removed m') = map v_text (not_removed m r) ++ ys /\
    subseq (map v_text (visible none_removed l)) ys.
Proof. intros G T ks m l r HG HT. apply crash_ok; auto. Qed.
Print Assumptions c11_crash_loses_nothing.

(** C12, the part that holds: a session file of at most one buffer is repeated as a whole, at most once per crash,
    and nothing else appears. *)
Theorem c12_crash_repeats_whole_session_partial : forall (G T : bytes) ks m l r,
  1 < length G -> 51 <= length T ->
  wf_master (length G) m -> terminated l -> length l <= length G -> wf_rem r -> removals_at_lines m r ->
  no_dangling m -> no_dangling l ->
  exists m' n, reap G T (fold_left (fun s k => reap_crash G T k s) ks (mkR m (Some l) r)) = mkR m' None None /\
    n <= length ks /\
    map shown_as (visible none_removed m') =
      map shown_as (not_removed m r) ++ concat (repeat (map shown_as (visible none_removed l)) (S n)).
Proof. intros G T ks m l r HG HT. apply crash_copies; auto. Qed.
Print Assumptions c12_crash_repeats_whole_session_partial.

(** The buffer sizes of the code: history_read_buffer (64000), tmp[512]. *)
Definition realG : bytes := repeat NUL (N.to_nat 64000).
Definition realT : bytes := repeat NUL 512.

Definition ex_lines : bytes := lit "git log" ++ [LF] ++ TIME ++ lit "12" ++ [LF] ++ lit "make" ++ [LF].
Definition ex_rem : option bytes := Some (rem_file (Some ex_tag) [14]).

Lemma ex_master_wf_real : wf_master (length realG) ex_master.
Proof.
  destruct ex_master_wf as ((A & B & C) & D). split; auto. split; auto. split; auto.
  eapply lines_fit_mono; [|exact B]. unfold exG, realG. rewrite !repeat_length. lia.
Qed.

Lemma ex_rem_wf : wf_rem ex_rem.
Proof.
  exists (Some ex_tag), [14]. split; [reflexivity|]. split; [|repeat constructor].
  intros t E. injection E as <-. exact ex_tag_good.
Qed.

Lemma spec_removed_ex o : spec_removed ex_master ex_rem o = mem_nat o [14].
Proof.
  unfold ex_master, ex_rem. rewrite spec_removed_tagged by exact ex_tag_good. rewrite eqb_bytes_refl. reflexivity.
Qed.

Lemma ex_rem_lines : removals_at_lines ex_master ex_rem.
Proof.
  intros o H. rewrite spec_removed_ex in H. apply mem_nat_in in H as [<-|[]].
  exists (lit "dir"). split; [vm_compute; auto|right; reflexivity].
Qed.

Lemma ex_lines_term : terminated ex_lines.
Proof. right. exists (removelast ex_lines), LF. split; reflexivity. Qed.

(** A crash between the append and the unlink of the session file repeats the session. *)
Theorem c12_crash_duplicates_refuted :
  ~ (forall k m l r m', wf_master (length realG) m -> terminated l -> lines_fit (length realG) (lines_of l) ->
       wf_rem r -> removals_at_lines m r ->
       reap realG realT (reap_crash realG realT k (mkR m (Some l) r)) = mkR m' None None ->
       map v_text (visible none_removed m') = map v_text (not_removed m r) ++ map v_text (visible none_removed l)).
Proof.
  intro H. specialize (H 1 ex_master ex_lines ex_rem).
  remember (reap realG realT (reap_crash realG realT 1 (mkR ex_master (Some ex_lines) ex_rem))) as st eqn:E.
  vm_compute in E. subst st.
  assert (Hf : lines_fit (length realG) (lines_of ex_lines)).
  { unfold lines_fit, realG. rewrite repeat_length. apply Forall_forall. intros x Hx. vm_compute in Hx.
    destruct Hx as [<-|[<-|[<-|[]]]]; cbn [snd length]; lia. }
  epose proof (H _ ex_master_wf_real ex_lines_term Hf ex_rem_wf ex_rem_lines eq_refl) as H'.
  apply (f_equal (@length _)) in H'. vm_compute in H'. discriminate.
Qed.
Print Assumptions c12_crash_duplicates_refuted.

(** With a session file longer than the buffer, a crash between two WriteFile calls leaves an unterminated piece;
    the next reap glues the first line of the session to it, so an entry appears that nobody typed.  For every
    buffer size. *)
Definition glue_file (n : nat) : bytes := repeat "a"%char n ++ LF :: lit "bb" ++ [LF].
Definition glue_text (n : nat) : bytes := "b"%char :: repeat "a"%char n.

Lemma no_brk_as n : no_brk (repeat "a"%char n) = true.
Proof. induction n; auto. Qed.

Lemma glue_raw n o : 0 < n -> raw_lines o [] (glue_file n) = [(o, repeat "a"%char n); (o + n + 1, lit "bb")].
Proof.
  intro Hn. unfold glue_file. rewrite raw_lines_run.
  - cbn [length app]. rewrite repeat_length, Nat.sub_0_r. cbn [raw_lines].
    change (brk LF) with true. cbn [raw_lines lit list_ascii_of_string app]. change (brk "b"%char) with false.
    change (brk LF) with true. cbn [app length]. f_equal. f_equal. f_equal. lia.
  - apply no_brk_as.
  - reflexivity.
  - destruct n; [lia|discriminate].
Qed.

Theorem c12_crash_invents_entry_refuted : forall (G : bytes), 3 <= length G ->
  let l := glue_file (length G - 2) in
  exists m', reap G exT (reap_crash G exT 1 (mkR ex_master (Some l) None)) = mkR m' None None /\
    In (glue_text (length G - 2)) (map v_text (visible none_removed m')) /\
    ~ In (glue_text (length G - 2)) (map v_text (visible none_removed ex_master)) /\
    ~ In (glue_text (length G - 2)) (map v_text (visible none_removed l)).
Proof.
  intros G HG l. set (n := length G - 2) in *. assert (Hn : length G = n + 2) by (unfold n; lia).
  assert (Hl : length l = n + 4) by (unfold l, glue_file; rewrite app_length, repeat_length; cbn; lia).
  set (p := repeat "a"%char n ++ LF :: lit "b").
  assert (Hp : firstn (length G) l = p).
  { unfold l, glue_file, p. replace (repeat "a"%char n ++ LF :: lit "bb" ++ [LF]) with ((repeat "a"%char n ++ LF :: lit "b") ++ lit "b" ++ [LF]).
    - apply firstn_app_exact. rewrite app_length, repeat_length. cbn. lia.
    - rewrite <- app_assoc. reflexivity. }
  assert (Hc : exists cs, chunks G (length l) l = p :: cs).
  { rewrite Hl. replace (n + 4) with (S (n + 3)) by lia. cbn [chunks]. rewrite Hp.
    destruct l as [|c l'] eqn:El; [cbn in Hl; lia|]. eexists. reflexivity. }
  assert (Ec : reap_crash G exT 1 (mkR ex_master (Some l) None) = mkR (ex_master ++ p) (Some l) None).
  { unfold reap_crash, reap_ops. cbn [r_l r_m r_r]. destruct Hc as [cs ->]. reflexivity. }
  rewrite Ec. unfold reap. cbn [r_l]. unfold reap_ops. cbn [r_m r_r].
  change (removals_seen exT ((ex_master ++ p) ++ l) None) with (@nil nat). cbn [map app].
  rewrite fold_left_app, do_appends. rewrite (chunks_concat G exT ltac:(lia) ltac:(cbn; lia) (length l) l) by lia.
  cbn [fold_left reap_do r_m r_l r_r]. eexists. split; [reflexivity|]. split; [|split].
  - replace ((ex_master ++ p) ++ l) with (ex_master ++ (repeat "a"%char n ++ [LF]) ++ (glue_text n ++ [LF]) ++ lit "bb" ++ [LF]).
    + assert (Ht : terminated ex_master) by apply ex_master_wf.
      rewrite (texts_app _ _ Ht). apply in_or_app. right.
      rewrite texts_app by (apply terminated_snoc; reflexivity). apply in_or_app. right.
      rewrite texts_app by (apply terminated_snoc; reflexivity). apply in_or_app. left.
      unfold visible, lines_of. rewrite raw_lines_line; [|discriminate|].
      * left. reflexivity.
      * unfold glue_text. change (no_brk ("b"%char :: repeat "a"%char n)) with (no_brk (repeat "a"%char n)). apply no_brk_as.
    + unfold p, l, glue_file, glue_text. rewrite <- !app_assoc. cbn [lit list_ascii_of_string app]. reflexivity.
  - intro H. vm_compute in H. destruct H as [H|[H|[H|[]]]]; discriminate.
  - intro H. apply in_map_iff in H as (e & Et & He). apply visible_from_in in He as (He & _).
    unfold lines_of, l in He. rewrite glue_raw in He by lia. rewrite Et in He. unfold glue_text in He.
    destruct He as [He|[He|[]]].
    + injection He as _ He. destruct n; [lia|]. discriminate.
    + injection He as _ He. destruct n; [lia|]. discriminate.
Qed.
Print Assumptions c12_crash_invents_entry_refuted.

Example c10_example :
  map shown_as (visible none_removed (r_m (reap exG exT (mkR ex_master (Some ex_lines) ex_rem)))) =
  [(lit "cd x", lit "9"); (lit "dir /s", []); (lit "git log", []); (lit "make", lit "12")].
Proof. vm_compute. reflexivity. Qed.

Example c10_hyps : wf_master (length exG) ex_master /\ terminated ex_lines /\ wf_rem ex_rem /\
  removals_at_lines ex_master ex_rem /\ lines_fit (length exG) (lines_of ex_lines) /\ length ex_lines <= length exG.
Proof.
  split; [exact ex_master_wf|]. split; [exact ex_lines_term|]. split; [exact ex_rem_wf|]. split; [exact ex_rem_lines|].
  split; [unfold lines_fit; vm_compute; repeat constructor|vm_compute; repeat constructor].
Qed.

Example c11_example :
  map v_text (visible none_removed (r_m (reap exG exT (fold_left (fun s k => reap_crash exG exT k s) [2; 0; 3]
    (mkR ex_master (Some ex_lines) ex_rem))))) =
  [lit "cd x"; lit "dir /s"; lit "git log"; lit "make"; lit "git log"; lit "make"; lit "git log"; lit "make"].
Proof. vm_compute. reflexivity. Qed.

(** ** C13 *)

(** After clear, nothing a session with a removals file removes from the master disappears from its view, ever:
    whatever entries [x] came to the master and whatever was removed since ([os]). *)
Theorem c13_clear_disables_removals : forall (G T : bytes) tag m s r x line,
  1 < length G -> 51 <= length T -> tag_ranges tag -> s_rem s = Some r ->
  let '(m1, s1) := db_clear tag m s in
  wf_master (length G) (m1 ++ x) ->
  forall m2 s2 n, remove_text_master G T line (m1 ++ x) s1 = Some (m2, s2, n) ->
    m2 = m1 ++ x /\ view_master m2 (s_rem s2) = visible none_removed (m1 ++ x).
Proof.
  intros G T tag m s r x line HG HT Htag Hr. unfold db_clear. rewrite Hr. cbn [wl_add fst option_map].
  pose proof (tag_text_good tag Htag) as Hg.
  intros Hw m2 s2 n. unfold remove_text_master. cbn [s_rem].
  destruct (init_good (([] ++ tag_text tag ++ [LF]) ++ x) G (removals_seen T (([] ++ tag_text tag ++ [LF]) ++ x) (Some []))) as (Hgd & Hp & Hlp).
  { lia. } { apply Hw. } { apply (fits_G G T HG HT). apply Hw. }
  rewrite (find_defer_ok (length G)) by (auto; rewrite ?Hlp; unfold measure, li_fuel; rewrite ?Hlp; lia).
  intro E. injection E as E1 E2 _. subst m2 s2. split; [reflexivity|]. cbn [set_rem s_rem].
  rewrite defer_nums. cbn [app]. unfold view_master, visible.
  apply visible_from_ext. intros o t _. rewrite <- app_assoc.
  apply (spec_removed_untagged (tag_text tag) x). exact Hg.
Qed.
Print Assumptions c13_clear_disables_removals.

(** The statement: a removal by text after clear makes the entry disappear. *)
Theorem c13_removal_after_clear_refuted :
  ~ (forall tag m s x line m1 s1 m2 s2 n, wf realG m s -> rem_current m (s_rem s) -> tag_ranges tag ->
       db_clear tag m s = (m1, s1) -> wf realG (m1 ++ x) s1 -> plain line ->
       db_remove_text realG realT line (m1 ++ x) s1 = Some (m2, s2, n) -> ~ In line (stexts m2 s2)).
Proof.
  intro H.
  set (tag := mkTag 5 6 7 8) in *. set (m1 := fst (db_clear tag ex_master ex_sess)).
  set (s1 := snd (db_clear tag ex_master ex_sess)). set (x := lit "dir" ++ [LF]).
  assert (E : exists m2 s2 n, db_remove_text realG realT (lit "dir") (m1 ++ x) s1 = Some (m2, s2, n) /\
                              In (lit "dir") (stexts m2 s2)).
  { do 3 eexists. split; [vm_compute; reflexivity|vm_compute; auto]. }
  destruct E as (m2 & s2 & n & E & Hin).
  refine (H tag ex_master ex_sess x (lit "dir") m1 s1 m2 s2 n _ (proj2 ex_wf) _ eq_refl _ _ E Hin).
  - destruct ex_wf as ((A & B & C & D) & _). split; [exact ex_master_wf_real|]. split; [|split; auto].
    destruct B as (B1 & B2 & B3). split; [exact B1|]. split; [|exact B3].
    eapply lines_fit_mono; [|exact B2]. unfold exG, realG. rewrite !repeat_length. lia.
  - repeat split.
  - split; [|split; [|split]].
    + split.
      * split; [|split].
        -- right. exists (removelast (m1 ++ x)), LF. split; reflexivity.
        -- apply (lines_fit_mono 30); [unfold realG; rewrite repeat_length; lia|]. unfold lines_fit. vm_compute. repeat constructor.
        -- vm_compute. discriminate.
      * exists (tag_text tag), x. split; [reflexivity|]. apply tag_text_good. repeat split.
    + split; [left; reflexivity|]. split; [apply Forall_nil|vm_compute; discriminate].
    + exists None, []. split; [reflexivity|]. split; [discriminate|constructor].
    + discriminate.
  - split; [discriminate|]. repeat split.
Qed.
Print Assumptions c13_removal_after_clear_refuted.

Example c13_example : wf_master (length exG) (fst (db_clear (mkTag 5 6 7 8) ex_master ex_sess) ++ lit "dir" ++ [LF]).
Proof.
  split.
  - split; [|split].
    + right. exists (removelast (fst (db_clear (mkTag 5 6 7 8) ex_master ex_sess) ++ lit "dir" ++ [LF])), LF. split; reflexivity.
    + unfold lines_fit. vm_compute. repeat constructor.
    + vm_compute. discriminate.
  - exists (tag_text (mkTag 5 6 7 8)), (lit "dir" ++ [LF]). split; [reflexivity|]. apply tag_text_good. repeat split.
Qed.

(** ** C14 *)

(** The time stamp reported with the entry at [o] is the line directly before it in the file. *)
Definition own_stamp (f : bytes) (e : ventry) : Prop :=
  match v_ts e with
  | None => True
  | Some (p, s) => exists ls1 ls2, lines_of f = ls1 ++ (p, TIME ++ s) :: (v_off e, v_text e) :: ls2
  end.

Lemma time_line_split t : time_line t = true -> t = TIME ++ skipn 7 t.
Proof. unfold time_line. intro H. apply prefixb_iff in H as [r ->]. reflexivity. Qed.

Lemma own_stamp_from ls2 : forall ls1 ts e,
  match ts with None => True | Some (p, s) => exists ls0, ls1 = ls0 ++ [(p, TIME ++ s)] end ->
  In e (visible_from none_removed ts ls2) ->
  match v_ts e with
  | None => True
  | Some (p, s) => exists a b, ls1 ++ ls2 = a ++ (p, TIME ++ s) :: (v_off e, v_text e) :: b
  end.
Proof.
  induction ls2 as [|[o t] ls2 IH]; intros ls1 ts e Hts He; cbn [visible_from] in He; [destruct He|].
  assert (Hre : forall ts' , match ts' with None => True | Some (p, s) => exists ls0, ls1 ++ [(o, t)] = ls0 ++ [(p, TIME ++ s)] end ->
    In e (visible_from none_removed ts' ls2) -> match v_ts e with
  | None => True
  | Some (p, s) => exists a b, ls1 ++ (o, t) :: ls2 = a ++ (p, TIME ++ s) :: (v_off e, v_text e) :: b
  end).
  { intros ts' H1 H2. specialize (IH (ls1 ++ [(o, t)]) ts' e H1 H2). rewrite <- app_assoc in IH. exact IH. }
  destruct (time_line t) eqn:Et.
  - apply (Hre _) in He; auto. exists ls1. rewrite <- (time_line_split t Et). reflexivity.
  - destruct (bar_line t); [apply (Hre None) in He; auto|]. cbn [none_removed] in He.
    destruct He as [<-|He]; [|apply (Hre None) in He; auto].
    cbn [v_ts v_off v_text]. destruct ts as [[p s]|]; auto. destruct Hts as [ls0 ->].
    exists ls0, ls2. rewrite <- app_assoc. reflexivity.
Qed.

(** Without deferred removals every reported time stamp is the entry's own. *)
Theorem c14_own_stamp_partial : forall garbage f es d,
  terminated f -> lines_fit (length garbage) (lines_of f) -> 0 < length garbage ->
  read_bank garbage [] f = Some (es, d) -> Forall (own_stamp f) (map to_v es).
Proof.
  intros garbage f es d Ht Hf Hg E. destruct (read_bank_ok garbage [] f Ht Hf Hg) as (es' & d' & E' & Hv & _).
  rewrite E in E'. injection E' as <- _. rewrite Hv, visible_none_removed. apply Forall_forall. intros e He.
  unfold own_stamp. apply (own_stamp_from (lines_of f) [] None e I He).
Qed.
Print Assumptions c14_own_stamp_partial.

(** With deferred removals a removed entry's time stamp is reported for the next entry without one. *)
Theorem c14_own_stamp_refuted :
  ~ (forall rs f es d, terminated f -> lines_fit (length realG) (lines_of f) ->
       read_bank realG rs f = Some (es, d) -> Forall (own_stamp f) (map to_v es)).
Proof.
  intro H. specialize (H [27] ex_master).
  remember (read_bank realG [27] ex_master) as st eqn:E. vm_compute in E. subst st.
  assert (Ht : terminated ex_master) by apply ex_master_wf.
  assert (Hf : lines_fit (length realG) (lines_of ex_master)).
  { eapply lines_fit_mono; [|apply ex_master_wf_real]. lia. }
  epose proof (H _ _ Ht Hf eq_refl) as H'. inversion H' as [|? ? _ H2]. subst. inversion H2 as [|? ? H3 _]. subst.
  unfold own_stamp in H3. cbn [to_v v_ts e_ts v_off e_off v_text e_text] in H3. destruct H3 as (a & b & H3).
  revert H3. vm_compute. intro H3.
  repeat (destruct a as [|? a]; [discriminate|]; injection H3 as _ H3).
  destruct a; discriminate.
Qed.
Print Assumptions c14_own_stamp_refuted.

Example c14_example :
  option_map (fun p => map to_v (fst p)) (read_bank realG [] ex_master) =
    Some [mkV 14 (lit "dir") None; mkV 27 (lit "cd x") (Some (18, lit "9")); mkV 32 (lit "dir /s") None].
Proof. vm_compute. reflexivity. Qed.
