(** What is written comes back: whole, and line by line. *)
From Verif Require Import Base SsModel SsSpec SsProofs SsRead SsSim.
Open Scope nat_scope.

Lemma totext_app a b : totext (a ++ b) = totext a ++ totext b.
Proof. induction a as [|c a IH]; [reflexivity|]. cbn [app totext]. rewrite IH. destruct (c =? 10)%N; reflexivity. Qed.
Lemma totext_id a : ~ In 10%N a -> totext a = a.
Proof. induction a as [|c a IH]; intro H; [reflexivity|]. cbn [totext]. destruct (c =? 10)%N eqn:E; [exfalso; apply H; left; lia|]. rewrite IH by (intro X; apply H; right; exact X). reflexivity. Qed.
Lemma fromtext_cons c s : fromtext (c :: s) = match s with d :: s' => if ((c =? 13) && (d =? 10))%N then 10%N :: fromtext s' else c :: fromtext s | [] => [c] end.
Proof. reflexivity. Qed.
Lemma totext_head s d t : totext s = d :: t -> d <> 10%N.
Proof. destruct s as [|c s]; cbn [totext]; [discriminate|]. destruct (c =? 10)%N eqn:E; intro H; injection H as <- _; lia. Qed.
Lemma round_trip s : fromtext (totext s) = s.
Proof.
  induction s as [|c s IH]; [reflexivity|]. cbn [totext]. destruct (c =? 10)%N eqn:E.
  - rewrite fromtext_cons. cbn [N.eqb Pos.eqb andb]. rewrite IH. f_equal. lia.
  - rewrite fromtext_cons. destruct (totext s) as [|d t] eqn:Et; [cbn [fromtext] in IH; rewrite <- IH; reflexivity|]. pose proof (totext_head s d t Et). replace (d =? 10)%N with false by lia. rewrite andb_false_r, IH. reflexivity.
Qed.

Definition enc (text : bool) (s : bytes) : bytes := if text then totext s else s.
Definition with_b (m : bytes) (text : bool) : bytes := if text then m else m ++ [98%N].

Lemma write_fresh MX (text : bool) strs : forall p file, p = length file -> p + length (concat (map (enc text) strs)) <= MX - 1 ->
  f_write_all MX text false strs p file = (file ++ concat (map (enc text) strs), p + length (concat (map (enc text) strs)), true).
Proof.
  induction strs as [|s strs IH]; intros p file Hp Hl; cbn [f_write_all map concat].
  - rewrite app_nil_r, Nat.add_0_r. reflexivity.
  - cbn [map concat] in Hl. rewrite app_length in Hl. fold (enc text s). unfold fits. rewrite firstn_all2 by lia. rewrite Nat.eqb_refl.
    assert (Eo : overwrite p (enc text s) file = file ++ enc text s) by (unfold overwrite; rewrite firstn_all2, skipn_all2 by lia; rewrite app_nil_r; reflexivity).
    rewrite Eo, IH; [|rewrite app_length; lia|lia]. rewrite <- app_assoc, app_length, Nat.add_assoc. reflexivity.
Qed.

Section L.
Variables MX B K : nat.
Variable junk : nat -> N.
Hypothesis HB : 2 <= B.
Hypothesis HM : B <= MX.
Variable name : bytes.
Hypothesis Hname : name <> [].
Variable text : bool.
Definition session strs fs := [Open name (with_b [119%N] text); Write 0 strs; Close 0; Open name (with_b [114%N] text); Read 1 fs].
Lemma beq_refl a : beq a a = true. Proof. induction a as [|c a IH]; [reflexivity|]. cbn [beq]. rewrite N.eqb_refl. exact IH. Qed.
Lemma session_result strs fs r q : fs <> [] -> length (concat (map (enc text) strs)) <= MX - 1 ->
  let h := mkFh (Some 0) true false false text 0 in let file := concat (map (enc text) strs) in
  fine_fmts B fs h file -> f_read_fmts fs h file = (r, q) ->
  exists w, run MX B K junk (session strs fs) start = Some (w, [Opened 0; Done; Done; Opened 1; Got r]).
Proof.
  intros Hfs Hl h file Hf Hr. destruct (run_ok MX B K junk HB HM (session strs fs) start (start_winv MX)) as (w' & rs & E1 & _ & E2).
  - unfold session. change (abs start) with (mkFs [] []). cbn [fine_run]. split; [exact Logic.I|]. destruct name as [|c nm] eqn:En; [destruct (Hname eq_refl)|].
    assert (Eo : fstep MX (Open (c :: nm) (with_b [119%N] text)) (mkFs [] []) = (mkFs [(c :: nm, [])] [mkFh (Some 0) false true false text 0], Opened 0)) by (destruct text; reflexivity).
    rewrite Eo. cbn [fst]. split; [unfold fine, on; cbn [fs_handles fs_files nth_error fh_file fh_write fh_append fh_pos length]; intros _; right; apply le_n|].
    assert (Ew : fstep MX (Write 0 strs) (mkFs [(c :: nm, [])] [mkFh (Some 0) false true false text 0]) = (mkFs [(c :: nm, file)] [mkFh (Some 0) false true false text (length file)], Done)).
    { unfold fstep, on_handle. cbn [fs_handles fs_files nth_error fh_file fh_write fh_append fh_pos fh_text]. rewrite (write_fresh MX text strs 0 []) by (cbn [length]; lia). reflexivity. }
    rewrite Ew. cbn [fst]. split; [exact Logic.I|].
    assert (Ec : fstep MX (Close 0) (mkFs [(c :: nm, file)] [mkFh (Some 0) false true false text (length file)]) = (mkFs [(c :: nm, file)] [mkFh None false true false text (length file)], Done)) by reflexivity.
    rewrite Ec. cbn [fst]. split; [exact Logic.I|].
    assert (Er : fstep MX (Open (c :: nm) (with_b [114%N] text)) (mkFs [(c :: nm, file)] [mkFh None false true false text (length file)]) = (mkFs [(c :: nm, file)] [mkFh None false true false text (length file); h], Opened 1)).
    { cbn [fstep]. unfold f_open. destruct text; cbn [with_b app]; (replace (find_file 0 (c :: nm) (fs_files _)) with (Some 0) by (cbn [fs_files find_file]; rewrite beq_refl; reflexivity)); reflexivity. }
    rewrite Er. cbn [fst]. split; [|exact Logic.I]. unfold fine, on. cbn [fs_handles fs_files nth_error]. change (fh_file h) with (Some 0). cbn [nth_error]. intros _. destruct fs as [|f fs]; [destruct (Hfs eq_refl)|]. exact Hf.
  - exists w'. rewrite E1. do 2 f_equal. apply (f_equal snd) in E2. cbn [snd] in E2. rewrite <- E2. clear E1 E2. unfold session. change (abs start) with (mkFs [] []). cbn [frun]. destruct name as [|c nm] eqn:En; [destruct (Hname eq_refl)|].
    assert (Eo : fstep MX (Open (c :: nm) (with_b [119%N] text)) (mkFs [] []) = (mkFs [(c :: nm, [])] [mkFh (Some 0) false true false text 0], Opened 0)) by (destruct text; reflexivity).
    rewrite Eo.
    assert (Ew : fstep MX (Write 0 strs) (mkFs [(c :: nm, [])] [mkFh (Some 0) false true false text 0]) = (mkFs [(c :: nm, file)] [mkFh (Some 0) false true false text (length file)], Done)).
    { unfold fstep, on_handle. cbn [fs_handles fs_files nth_error fh_file fh_write fh_append fh_pos fh_text]. rewrite (write_fresh MX text strs 0 []) by (cbn [length]; lia). reflexivity. }
    rewrite Ew.
    assert (Ec : fstep MX (Close 0) (mkFs [(c :: nm, file)] [mkFh (Some 0) false true false text (length file)]) = (mkFs [(c :: nm, file)] [mkFh None false true false text (length file)], Done)) by reflexivity.
    rewrite Ec.
    assert (Er : fstep MX (Open (c :: nm) (with_b [114%N] text)) (mkFs [(c :: nm, file)] [mkFh None false true false text (length file)]) = (mkFs [(c :: nm, file)] [mkFh None false true false text (length file); h], Opened 1)).
    { cbn [fstep]. unfold f_open. destruct text; cbn [with_b app]; (replace (find_file 0 (c :: nm) (fs_files _)) with (Some 0) by (cbn [fs_files find_file]; rewrite beq_refl; reflexivity)); reflexivity. }
    rewrite Er. unfold fstep, on_handle. cbn [fs_handles fs_files nth_error]. change (fh_file h) with (Some 0). cbn [nth_error]. change (fh_read h) with true. destruct fs as [|f fs]; [destruct (Hfs eq_refl)|]. cbv iota. rewrite Hr. reflexivity.
Qed.

Lemma whole_file strs : length (concat (map (enc text) strs)) <= MX - 1 -> exists w, run MX B K junk (session strs [All]) start = Some (w, [Opened 0; Done; Done; Opened 1; Got [Some (concat strs)]]).
Proof.
  intro Hl. eapply (session_result strs [All]); [discriminate|exact Hl|split; [exact Logic.I|cbn; exact Logic.I]|]. cbn [f_read_fmts f_read_one fh_pos fh_text skipn]. do 3 f_equal.
  assert (Et : enc text (concat strs) = concat (map (enc text) strs)). { unfold enc. destruct text; [|rewrite map_id; reflexivity]. clear. induction strs as [|s strs IH]; [reflexivity|]. cbn [map concat]. rewrite totext_app, IH. reflexivity. }
  rewrite <- Et. unfold enc. destruct text; [rewrite chars_text; apply round_trip|]. rewrite chars_bin, map_map. apply map_id.
Qed.

Definition terminated (l : bytes) : bytes := l ++ [10%N].
Definition plain (l : bytes) : Prop := ~ In 10%N l /\ ~ In 0%N l /\ (text = true -> (length l + 1) mod (B - 1) <> 0).
Lemma enc_line l : ~ In 10%N l -> enc text (terminated l) = (if text then l ++ [13%N] else l) ++ [10%N].
Proof. intro H. unfold enc, terminated. destruct text; [|reflexivity]. rewrite totext_app, totext_id by exact H. cbn [totext N.eqb Pos.eqb]. rewrite <- app_assoc. reflexivity. Qed.
Lemma lines_loop lines : forall pre p, p = length pre -> Forall plain lines -> let h := mkFh (Some 0) true false false text p in let file := pre ++ concat (map (enc text) (map terminated lines)) in
  fine_fmts B (repeat Line (length lines + 1)) h file /\ exists q, f_read_fmts (repeat Line (length lines + 1)) h file = (map Some lines ++ [None], q).
Proof.
  induction lines as [|l lines IH]; intros pre p Hp Hg h file.
  - unfold file. cbn [length Nat.add repeat map concat app fine_fmts f_read_fmts fine_fmt f_read_one]. subst h. cbn [fh_pos fh_text]. rewrite app_nil_r, skipn_all2 by lia. cbn [first_line]. split; [|exists p; reflexivity]. split; [|exact Logic.I]. unfold fine_line. cbn [first_line]. split; [intros []|]. intros _ X. discriminate X.
  - inversion Hg as [|? ? [H1 [H2 H3]] Hg']; subst. set (raw := if text then l ++ [13%N] else l) in *.
    assert (Ef : file = pre ++ (raw ++ [10%N]) ++ concat (map (enc text) (map terminated lines))) by (unfold file; cbn [map concat]; rewrite (enc_line l H1); reflexivity).
    assert (Hr : ~ In 10%N raw /\ ~ In 0%N raw). { unfold raw. destruct text; [|auto]. split; intro X; apply in_app_iff in X; destruct X as [X|[X|[]]]; try discriminate X; auto. }
    destruct Hr as [Hr1 Hr2].
    assert (Es : skipn (length pre) file = raw ++ [10%N] ++ concat (map (enc text) (map terminated lines))) by (rewrite Ef, skipn_app, skipn_all, Nat.sub_diag, <- app_assoc; reflexivity).
    assert (El : first_line (skipn (length pre) file) = (raw, true)) by (rewrite Es, (first_line_app raw _ Hr1); cbn [app first_line N.eqb Pos.eqb fst snd]; rewrite app_nil_r; reflexivity).
    assert (Eo : f_read_one Line h file = (Some l, length pre + length raw + 1)).
    { subst h. cbn [f_read_one fh_pos fh_text]. rewrite El. rewrite Es. destruct (raw ++ [10%N] ++ concat (map (enc text) (map terminated lines))) as [|x t] eqn:Ex; [destruct raw; discriminate Ex|]. do 2 f_equal. rewrite app_nil_r. unfold raw. destruct text; [|reflexivity]. unfold drop_cr. rewrite last_last. cbn [N.eqb Pos.eqb]. apply removelast_last. }
    specialize (IH (pre ++ raw ++ [10%N]) (length pre + length raw + 1)). rewrite !app_length in IH. cbn [length] in IH. specialize (IH ltac:(lia) Hg'). cbv zeta in IH. replace ((pre ++ raw ++ [10%N]) ++ concat (map (enc text) (map terminated lines))) with file in IH by (rewrite Ef, <- !app_assoc; reflexivity). destruct IH as [IH1 (q & IH2)].
    cbn [length Nat.add repeat fine_fmts f_read_fmts]. rewrite Eo. change (to_pos (length pre + length raw + 1) h) with (mkFh (Some 0) true false false text (length pre + length raw + 1)). split; [split; [|exact IH1]|exists q; rewrite IH2; reflexivity].
    unfold fine_fmt, fine_line. change (fh_pos h) with (length pre). rewrite El. split; [exact Hr2|]. change (fh_text h) with text. intros Ht _ _ _. unfold raw. rewrite Ht, app_length. cbn [length]. exact (H3 Ht).
Qed.
Lemma line_by_line lines : Forall plain lines -> length (concat (map (enc text) (map terminated lines))) <= MX - 1 ->
  exists w, run MX B K junk (session (map terminated lines) (repeat Line (length lines + 1))) start = Some (w, [Opened 0; Done; Done; Opened 1; Got (map Some lines ++ [None])]).
Proof.
  intros Hg Hl. destruct (lines_loop lines [] 0 eq_refl Hg) as [H1 (q & H2)]. exact (session_result (map terminated lines) (repeat Line (length lines + 1)) _ q ltac:(rewrite Nat.add_comm; discriminate) Hl H1 H2).
Qed.
End L.
