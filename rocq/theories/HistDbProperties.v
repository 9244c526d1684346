(** Properties of one history session: C02-C06, C15 (pruning), C16, C18. *)
From Verif Require Import Base HistFileModel HistSpec HistFileProofs HistLines HistFindProofs HistDbModel
  HistDbSpec HistDbProofs.

(** C02: what add does to the two banks, in every duplicate mode that reaches the append: the active bank
    gets one entry at its end, with the time stamp if enabled; everything else is unchanged. *)
Theorem c02_add_appends_one : forall (G T : bytes) cfg now line m s m' s',
  1 < length G -> 51 <= length T ->
  wf G m s -> rem_current m (s_rem s) -> can_add G cfg line now m s ->
  add_line (c_stamp cfg) now line m s = (m', s') ->
  wf G m' s' /\ rem_current m' (s_rem s') /\ same_mem s s' /\ s_rem s' = s_rem s /\
  stexts m' s' = stexts m s ++ [line] /\
  (c_stamp cfg = true \/ no_dangling (active_file m s) ->
     match s_lines s with
     | None => fst (sview m' s') = fst (sview m s) ++ [added (c_stamp cfg) now line m] /\
               snd (sview m' s') = snd (sview m s)
     | Some l => fst (sview m' s') = fst (sview m s) /\
                 snd (sview m' s') = snd (sview m s) ++ [added (c_stamp cfg) now line l]
     end).
Proof. intros G T cfg now line m s m' s' HG HT. eapply add_line_ok; eassumption || auto. Qed.
Print Assumptions c02_add_appends_one.

(** C02: history_db::add as a whole, all duplicate modes. *)
Theorem c02_add_texts : forall (G T : bytes) cfg now line m s,
  1 < length G -> 51 <= length T ->
  wf G m s -> rem_current m (s_rem s) -> can_add G cfg line now m s -> ignored cfg line = false ->
  exists m' s', db_add G T cfg now line m s = Some (m', s', true) /\
    wf G m' s' /\ rem_current m' (s_rem s') /\ same_mem s s' /\
    stexts m' s' = spec_add (c_dupe cfg) line (stexts m s) /\
    active_len m' s' <= active_len m s + length line + 19 /\
    (s_lines s = None <-> s_lines s' = None).
Proof. intros G T cfg now line m s HG HT. eapply db_add_ok; eassumption || auto. Qed.
Print Assumptions c02_add_texts.

Theorem c02_ignored_changes_nothing : forall (G T : bytes) cfg now line m s,
  line = [] \/ (c_ignore_space cfg = true /\ exists rest, line = SPC :: rest \/ line = TAB :: rest) ->
  db_add G T cfg now line m s = Some (m, s, false).
Proof.
  intros G T cfg now line m s H. apply db_add_ignored.
  destruct H as [->|[Hc [rest [-> | ->]]]]; cbn; rewrite ?Hc; reflexivity.
Qed.
Print Assumptions c02_ignored_changes_nothing.

(** C03: removing a displayed master entry, deferred or direct. *)
Theorem c03_remove_master_entry : forall (G : bytes) m s e,
  1 < length G -> wf G m s -> rem_current m (s_rem s) -> In e (fst (sview m s)) ->
  (s_rem s = None -> fakes_time (v_text e) = false) ->
  exists m' s', lock_remove (line_id bank_master (v_off e)) m s = Some (m', s') /\
    wf G m' s' /\ rem_current m' (s_rem s') /\ same_mem s s' /\ s_lines s' = s_lines s /\
    map off_text (fst (sview m' s')) =
      map off_text (filter (fun x => negb (Nat.eqb (v_off x) (v_off e))) (fst (sview m s))) /\
    (s_rem s = None -> fst (sview m' s') = filter (fun x => negb (Nat.eqb (v_off x) (v_off e))) (fst (sview m s))) /\
    tag_of m' = tag_of m /\ length m' = length m.
Proof. intros G m s e HG. apply (lock_remove_master G (repeat NUL 51)); auto. Qed.
Print Assumptions c03_remove_master_entry.

Theorem c03_remove_session_entry : forall (G : bytes) m s e,
  1 < length G -> wf G m s -> In e (snd (sview m s)) -> fakes_time (v_text e) = false ->
  exists s', lock_remove (line_id bank_session (v_off e)) m s = Some (m, s') /\
    wf G m s' /\ s_rem s' = s_rem s /\ same_mem s s' /\
    option_map (@length _) (s_lines s') = option_map (@length _) (s_lines s) /\
    snd (sview m s') = filter (fun x => negb (Nat.eqb (v_off x) (v_off e))) (snd (sview m s)).
Proof. intros G m s e HG. apply (lock_remove_session G (repeat NUL 51)); auto. Qed.
Print Assumptions c03_remove_session_entry.

(** C03 without the condition on the text is false: removing "x<TAB>time=5" turns it into a time stamp line,
    so the next entry acquires a time stamp. *)
Definition fake_file : bytes := lit "x" ++ [TAB] ++ lit "time=5" ++ [LF] ++ lit "dir" ++ [LF].
Theorem c03_unconditional_refuted : exists f e, In e (visible none_removed f) /\
  visible none_removed (wl_mark f (v_off e)) <>
  filter (fun x => negb (Nat.eqb (v_off x) (v_off e))) (visible none_removed f).
Proof.
  exists fake_file, (mkV 0 (lit "x" ++ [TAB] ++ lit "time=5") None). split.
  - vm_compute. auto.
  - vm_compute. discriminate.
Qed.
Print Assumptions c03_unconditional_refuted.

(** C04 *)
Theorem c04_remove_by_text : forall (G T : bytes) line m s,
  1 < length G -> 51 <= length T ->
  wf G m s -> rem_current m (s_rem s) -> fakes_time line = false ->
  exists m' s', db_remove_text G T line m s =
    Some (m', s', length (filter (wanted line) (fst (sview m s))) + length (filter (wanted line) (snd (sview m s)))) /\
  map off_text (fst (sview m' s')) = map off_text (filter (fun e => negb (wanted line e)) (fst (sview m s))) /\
  snd (sview m' s') = filter (fun e => negb (wanted line e)) (snd (sview m s)) /\
  (s_rem s = None -> fst (sview m' s') = filter (fun e => negb (wanted line e)) (fst (sview m s))) /\
  stexts m' s' = filter (fun t => negb (eqb_bytes line t)) (stexts m s) /\
  wf G m' s' /\ rem_current m' (s_rem s') /\ same_mem s s' /\
  length m' = length m /\ option_map (@length _) (s_lines s') = option_map (@length _) (s_lines s).
Proof. intros G T line m s HG HT. eapply db_remove_text_ok; eassumption || auto. Qed.
Print Assumptions c04_remove_by_text.

(** C05 *)
Theorem c05_find_first : forall (G T : bytes) line m s,
  1 < length G -> 51 <= length T -> wf G m s ->
  db_find G T line m s =
  Some (match find (wanted line) (fst (sview m s)) with
        | Some e => Some (line_id bank_master (v_off e))
        | None => option_map (fun e => line_id bank_session (v_off e)) (find (wanted line) (snd (sview m s)))
        end).
Proof. intros G T line m s HG HT. eapply db_find_ok; eassumption || auto. Qed.
Print Assumptions c05_find_first.

(** C06 *)
Lemma spec_adds_nodup cfg ls : c_dupe cfg = 1 \/ c_dupe cfg = 2 -> forall ts, NoDup ts -> NoDup (spec_adds cfg ls ts).
Proof.
  intro Hd. induction ls as [|l ls IH]; intros ts H; cbn [spec_adds fold_left]; auto.
  apply IH. destruct (ignored cfg (snd l)); auto.
  destruct Hd as [-> | ->]; [apply spec_add_nodup_ignore|apply spec_add_nodup_erase]; auto.
Qed.

Theorem c06_no_duplicates : forall (G T : bytes) cfg ls m s,
  1 < length G -> 51 <= length T -> c_dupe cfg = 1 \/ c_dupe cfg = 2 ->
  wf G m s -> rem_current m (s_rem s) -> (c_stamp cfg = true -> 18 < length G) ->
  Forall (addable G cfg) ls -> (N.of_nat (active_len m s + all_cost ls) <= max_off)%N ->
  NoDup (stexts m s) ->
  exists m' s', run_adds G T cfg ls m s = Some (m', s') /\ wf G m' s' /\ rem_current m' (s_rem s') /\
    stexts m' s' = spec_adds cfg ls (stexts m s) /\ NoDup (stexts m' s').
Proof.
  intros G T cfg ls m s HG HT Hd Hwf Hcur Hst Ha Hsz Hnd.
  destruct (run_adds_ok G T HG HT cfg ls m s Hwf Hcur Hst Ha Hsz) as (m' & s' & E & W & C & Tx).
  exists m', s'. repeat (split; [assumption|]). rewrite Tx. apply spec_adds_nodup; auto.
Qed.
Print Assumptions c06_no_duplicates.

Theorem c06_last_is_latest : forall (G T : bytes) cfg ls now line m s,
  1 < length G -> 51 <= length T -> c_dupe cfg = 2 ->
  wf G m s -> rem_current m (s_rem s) -> (c_stamp cfg = true -> 18 < length G) ->
  Forall (addable G cfg) (ls ++ [(now, line)]) -> ignored cfg line = false ->
  (N.of_nat (active_len m s + all_cost (ls ++ [(now, line)])) <= max_off)%N ->
  exists m' s' before, run_adds G T cfg (ls ++ [(now, line)]) m s = Some (m', s') /\
    stexts m' s' = before ++ [line] /\ ~ In line before.
Proof.
  intros G T cfg ls now line m s HG HT Hd Hwf Hcur Hst Ha Hi Hsz.
  destruct (run_adds_ok G T HG HT cfg _ m s Hwf Hcur Hst Ha Hsz) as (m' & s' & E & W & C & Tx).
  exists m', s'. eexists. split; [exact E|]. rewrite Tx. unfold spec_adds. rewrite fold_left_app.
  cbn [fold_left snd]. rewrite Hi, Hd. cbn [spec_add]. split; [reflexivity|].
  intro H. apply filter_In in H as [_ H]. rewrite eqb_bytes_refl in H. discriminate.
Qed.
Print Assumptions c06_last_is_latest.

(** C15: pruning keeps precisely the newest [limit] master entries and no session entry changes. *)
Theorem c15_prune : forall (G T : bytes) fuel limit m s,
  1 < length G -> 51 <= length T ->
  wf G m s -> rem_current m (s_rem s) -> loaded m s -> no_fakes m s -> s_mlen s - limit < fuel ->
  let '(m', s') := prune fuel limit m s in
  wf G m' s' /\ rem_current m' (s_rem s') /\ loaded m' s' /\ no_fakes m' s' /\
  fst (shown m' s') = skipn (length (fst (shown m s)) - limit) (fst (shown m s)) /\
  snd (sview m' s') = snd (sview m s).
Proof. intros G T fuel limit m s HG HT. eapply prune_ok; eassumption || auto. Qed.
Print Assumptions c15_prune.

(** C16: load establishes the correspondence between the index map and the displayed list ... *)
Theorem c16_load : forall (G T : bytes) m s, 1 < length G -> 51 <= length T -> wf G m s ->
  exists s', load_internal G T m s = Some (s', stexts m s) /\
    wf G m s' /\ s_rem s' = s_rem s /\ s_lines s' = s_lines s /\ loaded m s' /\
    s_mdel s' = deleted_count (removed_in (removals_seen T m (s_rem s))) m.
Proof. intros G T m s HG HT. eapply load_internal_ok; eassumption || auto. Qed.
Print Assumptions c16_load.

(** ... and every removal by index removes the entry displayed at that index. *)
Theorem c16_remove_index : forall (G T : bytes) i m s,
  1 < length G -> 51 <= length T ->
  wf G m s -> rem_current m (s_rem s) -> loaded m s -> no_fakes m s -> i < length (s_map s) ->
  exists m' s', db_remove_index i m s = (m', s', true) /\
    wf G m' s' /\ rem_current m' (s_rem s') /\ loaded m' s' /\ no_fakes m' s' /\
    (i < length (fst (shown m s)) ->
       fst (shown m' s') = remove_at i (fst (shown m s)) /\ snd (sview m' s') = snd (sview m s) /\
       (s_rem s = None -> fst (sview m' s') = remove_at i (fst (sview m s)))) /\
    (length (fst (shown m s)) <= i ->
       fst (sview m' s') = fst (sview m s) /\
       snd (sview m' s') = remove_at (i - length (fst (shown m s))) (snd (sview m s))) /\
    stexts m' s' = remove_at i (stexts m s).
Proof. intros G T i m s HG HT. eapply db_remove_index_ok; eassumption || auto. Qed.
Print Assumptions c16_remove_index.

Theorem c16_remove_sequence : forall (G T : bytes) is m s,
  1 < length G -> 51 <= length T ->
  wf G m s -> rem_current m (s_rem s) -> loaded m s -> no_fakes m s ->
  let '(m', s') := run_removes is m s in
  wf G m' s' /\ rem_current m' (s_rem s') /\ loaded m' s' /\
  stexts m' s' = fold_left (fun l i => remove_at i l) is (stexts m s).
Proof. intros G T is m s HG HT. eapply run_removes_ok; eassumption || auto. Qed.
Print Assumptions c16_remove_sequence.

(** C18 *)
Theorem c18_ids_faithful : forall bank o, (N.of_nat o < max_off)%N -> (bank < 2)%N ->
  id_bank (line_id bank o) = bank /\ id_offset (line_id bank o) = N.of_nat o /\ line_id bank o <> 0%N.
Proof. intros. apply (id_parts (repeat NUL 2) (repeat NUL 51)); auto; cbn; lia. Qed.
Print Assumptions c18_ids_faithful.

Theorem c18_ids_monotone : forall bank o o', (N.of_nat o < max_off)%N -> (N.of_nat o' < max_off)%N -> (bank < 2)%N ->
  ((line_id bank o < line_id bank o')%N <-> o < o') /\ (line_id bank o = line_id bank o' -> o = o').
Proof.
  intros bank o o' H H' Hb. rewrite !(line_id_val (repeat NUL 2) (repeat NUL 51)) by (auto; cbn; lia). split; [split|]; lia.
Qed.
Print Assumptions c18_ids_monotone.

(** ** Non-vacuity: a session with a removals file, a shared session, and a run of both. *)
Definition exG : bytes := repeat NUL 64.
Definition exT : bytes := repeat NUL 512.
Definition ex_tag : bytes := lit "|CTAG_1_2_3_4".
Definition ex_master : bytes := ex_tag ++ LF ::
  (lit "dir" ++ [LF] ++ TIME ++ lit "9" ++ [LF] ++ lit "cd x" ++ [LF] ++ lit "dir /s" ++ [LF]).
Definition ex_sess : sess :=
  mkSess (Some (lit "git" ++ [LF])) (Some (rem_file (Some ex_tag) [14])) ex_tag [] 0 0.
Definition ex_shared : sess := mkSess None None ex_tag [] 0 0.

Lemma ex_tag_good : good_tag ex_tag.
Proof. unfold good_tag. vm_compute. repeat constructor. Qed.

Lemma ex_master_wf : wf_master (length exG) ex_master.
Proof.
  split.
  - split; [right; exists (removelast ex_master), LF; split; reflexivity|]. split.
    + unfold lines_fit. vm_compute. repeat constructor.
    + vm_compute. discriminate.
  - exists ex_tag, (skipn 14 ex_master). split; [reflexivity|exact ex_tag_good].
Qed.

Example ex_wf : wf exG ex_master ex_sess /\ rem_current ex_master (s_rem ex_sess).
Proof.
  split.
  - split; [exact ex_master_wf|]. split; [|split].
    + split; [right; exists (lit "git"), LF; split; reflexivity|]. split.
      * unfold lines_fit. vm_compute. repeat constructor.
      * vm_compute. discriminate.
    + exists (Some ex_tag), [14]. split; [reflexivity|]. split.
      * intros t E. injection E as <-. exact ex_tag_good.
      * repeat constructor.
    + discriminate.
  - exists ex_tag, (skipn 14 ex_master), [14]. split; [reflexivity|]. split; [exact ex_tag_good|]. split; [reflexivity|]. repeat constructor.
Qed.

Example ex_wf_shared : wf exG ex_master ex_shared /\ rem_current ex_master (s_rem ex_shared).
Proof. split; [|exact I]. split; [exact ex_master_wf|]. repeat split. Qed.

Example ex_texts : stexts ex_master ex_sess = [lit "cd x"; lit "dir /s"; lit "git"].
Proof. vm_compute. reflexivity. Qed.

Example ex_erase_prev :
  option_map (fun p => stexts (fst p) (snd p))
    (run_adds exG exT (mkCfg 2 true true) [(5%N, lit "dir /s"); (6%N, lit " no"); (7%N, lit "git")] ex_master ex_sess)
  = Some [lit "cd x"; lit "dir /s"; lit "git"].
Proof. vm_compute. reflexivity. Qed.

Example ex_addable : Forall (addable exG (mkCfg 2 true true)) [(5%N, lit "dir /s"); (6%N, lit " no"); (7%N, lit "git")].
Proof.
  apply Forall_cons; [|apply Forall_cons; [left; reflexivity|apply Forall_cons; [|apply Forall_nil]]];
    right; (split; [|vm_compute; repeat constructor]); (split; [discriminate|repeat split]).
Qed.

Example ex_load_remove :
  option_map (fun p => let '(m', s') := run_removes [1; 1; 7] ex_master (fst p) in (stexts m' s', s_mlen s'))
    (load_internal exG exT ex_master ex_sess) = Some ([lit "cd x"], 1).
Proof. vm_compute. reflexivity. Qed.

Example ex_loaded : exists s', load_internal exG exT ex_master ex_sess = Some (s', stexts ex_master ex_sess) /\
  loaded ex_master s' /\ no_fakes ex_master s'.
Proof.
  eexists. split; [vm_compute; reflexivity|]. split.
  - vm_compute. auto.
  - unfold no_fakes. vm_compute. repeat constructor.
Qed.

Example ex_prune :
  option_map (fun p => let '(m', s') := prune 9 1 ex_master (fst p) in stexts m' s')
    (load_internal exG exT ex_master ex_shared) = Some [lit "dir /s"].
Proof. vm_compute. reflexivity. Qed.
