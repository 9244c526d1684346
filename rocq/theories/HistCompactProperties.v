(** Compaction of the history: C07, C08. *)
From Verif Require Import Base HistFileModel HistSpec HistFileProofs HistLines HistFindProofs HistDbModel
  HistDbSpec HistDbProofs HistDbProperties HistCompactSpec HistCompactProofs.

(** C07: after compaction the master file holds the newest [limit] of the (unique) visible entries, in order
    and with their time stamps, no deleted lines, and a new tag. *)
Theorem c07_compact_contents : forall (G T : bytes) tag limit uniq m rems,
  51 < length G -> 51 <= length T -> wf_master (length G) m -> tag_ranges tag ->
  (N.of_nat (length m + 50) <= max_off)%N -> limit_ok limit uniq (visible none_removed m) ->
  exists m' rems', compact_rewrite G T tag limit uniq m rems = Some (m', rems', tag_text tag) /\
    wf_master (length G) m' /\ tag_of m' = tag_text tag /\ deleted_count none_removed m' = 0 /\
    map shown_as (visible none_removed m') = map shown_as (spec_compact limit uniq (visible none_removed m)).
Proof.
  intros G T tag limit uniq m rems HG HT Hm Hr Hs Hok.
  destruct (compact_ok G T HG HT tag limit uniq m rems Hm Hr Hs) as (m' & remap & E & W & Ht & Hv & Hd & _).
  rewrite kept_ok in Hv by auto. eauto 10.
Qed.
Print Assumptions c07_compact_contents.

(** C07: an ordinary compaction (no uniq, limit not reached) changes nothing the user can see. *)
Theorem c07_compact_invisible : forall (G T : bytes) tag limit m rems,
  51 < length G -> 51 <= length T -> wf_master (length G) m -> tag_ranges tag ->
  (N.of_nat (length m + 50) <= max_off)%N -> limit = 0 \/ length (visible none_removed m) <= limit ->
  exists m' rems', compact_rewrite G T tag limit false m rems = Some (m', rems', tag_text tag) /\
    map shown_as (visible none_removed m') = map shown_as (visible none_removed m).
Proof.
  intros G T tag limit m rems HG HT Hm Hr Hs Hl.
  destruct (c07_compact_contents G T tag limit false m rems) as (m' & rems' & E & _ & _ & _ & Hv); auto.
  { left; auto. }
  exists m', rems'. split; [exact E|]. rewrite Hv. unfold spec_compact, uniq_entries.
  destruct limit; auto. destruct Hl as [Hl|Hl]; [discriminate|]. rewrite last_n_all; auto.
Qed.
Print Assumptions c07_compact_invisible.

(** C07, the excluded parameters: with uniq, fewer unique entries than the limit, and more entries than the
    limit, the loop at history_db.cpp:1056 runs off the start and every entry is lost. *)
Theorem c07_uniq_limit_erases_all : forall (G T : bytes) tag limit m rems,
  51 < length G -> 51 <= length T -> wf_master (length G) m -> tag_ranges tag ->
  (N.of_nat (length m + 50) <= max_off)%N ->
  length (dedup_by v_text (visible none_removed m)) < limit < length (visible none_removed m) ->
  exists m' rems', compact_rewrite G T tag limit true m rems = Some (m', rems', tag_text tag) /\
    visible none_removed m' = [].
Proof.
  intros G T tag limit m rems HG HT Hm Hr Hs [H1 H2].
  destruct (compact_ok G T HG HT tag limit true m rems Hm Hr Hs) as (m' & remap & E & W & Ht & Hv & Hd & _).
  exists m'. eexists. split; [exact E|]. unfold kept in Hv. cbn [uniq_entries] in Hv.
  apply Nat.ltb_lt in H1, H2. rewrite H1, H2 in Hv. cbn [andb map] in Hv.
  destruct (visible none_removed m'); [reflexivity|discriminate].
Qed.
Print Assumptions c07_uniq_limit_erases_all.

(** The master file "a b a c a": 3 unique entries; compacting to unique entries with limit 4 leaves none. *)
Definition dup_master : bytes := ex_tag ++ LF ::
  (lit "a" ++ [LF] ++ lit "b" ++ [LF] ++ lit "a" ++ [LF] ++ lit "c" ++ [LF] ++ lit "a" ++ [LF]).
Definition ex_newtag : tagsrc := mkTag 1700000000 12345 77 3.

Theorem c07_compact_contents_unrestricted_refuted : exists G T tag limit uniq m m' rems',
  wf_master (length G) m /\ tag_ranges tag /\ 51 < length G /\ 51 <= length T /\
  compact_rewrite G T tag limit uniq m [] = Some (m', rems', tag_text tag) /\
  map v_text (visible none_removed m') = [] /\
  map v_text (spec_compact limit uniq (visible none_removed m)) = [lit "b"; lit "c"; lit "a"].
Proof.
  exists exG, exT, ex_newtag, 4, true, dup_master. do 2 eexists. split; [|split; [|split; [|split; [|split]]]].
  - split.
    + split; [right; exists (removelast dup_master), LF; split; reflexivity|]. split.
      * unfold lines_fit. vm_compute. repeat constructor.
      * vm_compute. discriminate.
    + exists ex_tag, (skipn 14 dup_master). split; [reflexivity|exact ex_tag_good].
  - repeat split.
  - cbn; lia.
  - cbn; lia.
  - vm_compute. reflexivity.
  - split; vm_compute; reflexivity.
Qed.
Print Assumptions c07_compact_contents_unrestricted_refuted.

(** C08: every removals file that belongs to the current tag keeps hiding precisely the entries it hid. *)
Theorem c08_compact_keeps_removals : forall (G T : bytes) tag limit uniq m rems i r,
  51 < length G -> 51 <= length T -> wf_master (length G) m -> tag_ranges tag ->
  (N.of_nat (length m + 50) <= max_off)%N -> limit_ok limit uniq (visible none_removed m) ->
  nth_error rems i = Some r -> rem_current m r ->
  exists m' rems' r', compact_rewrite G T tag limit uniq m rems = Some (m', rems', tag_text tag) /\
    nth_error rems' i = Some r' /\ rem_current m' r' /\
    map v_text (view_master m' r') =
      map v_text (filter (fun e => negb (spec_removed m r (v_off e))) (spec_compact limit uniq (visible none_removed m))).
Proof.
  intros G T tag limit uniq m rems i r HG HT Hm Hr Hs Hok Hn Hc.
  destruct (compact_ok G T HG HT tag limit uniq m rems Hm Hr Hs) as (m' & remap & E & W & Ht & Hv & Hd & Hcur & _).
  rewrite kept_ok in Hcur by auto. destruct (Hcur r Hc) as [C1 C2].
  exists m'. do 2 eexists. split; [exact E|]. split; [apply map_nth_error; exact Hn|]. auto.
Qed.
Print Assumptions c08_compact_keeps_removals.

Lemma visible_filter_texts rm ls : forall ts ts', 
  map v_text (visible_from rm ts ls) = map v_text (filter (fun e => negb (rm (v_off e))) (visible_from none_removed ts' ls)).
Proof.
  induction ls as [|[o t] ls IH]; intros ts ts'; cbn [visible_from]; auto.
  destruct (time_line t); auto. destruct (bar_line t); auto. cbn [none_removed filter v_off].
  destruct (rm o); cbn [negb map]; rewrite (IH _ None); reflexivity.
Qed.

(** C08: an ordinary compaction leaves every session's view of the texts unchanged. *)
Theorem c08_compact_view_unchanged : forall (G T : bytes) tag limit m rems i r,
  51 < length G -> 51 <= length T -> wf_master (length G) m -> tag_ranges tag ->
  (N.of_nat (length m + 50) <= max_off)%N -> limit = 0 \/ length (visible none_removed m) <= limit ->
  nth_error rems i = Some r -> rem_current m r ->
  exists m' rems' r', compact_rewrite G T tag limit false m rems = Some (m', rems', tag_text tag) /\
    nth_error rems' i = Some r' /\ rem_current m' r' /\
    map v_text (view_master m' r') = map v_text (view_master m r).
Proof.
  intros G T tag limit m rems i r HG HT Hm Hr Hs Hl Hn Hc.
  destruct (c08_compact_keeps_removals G T tag limit false m rems i r) as (m' & rems' & r' & E & Hn' & Hc' & Hv); auto.
  { left; auto. }
  exists m', rems', r'. repeat (split; [assumption|]). rewrite Hv. unfold view_master, visible at 2.
  rewrite (visible_filter_texts _ _ None None). f_equal. f_equal. unfold spec_compact, uniq_entries.
  destruct limit; auto. destruct Hl as [Hl|Hl]; [discriminate|]. rewrite last_n_all; auto.
Qed.
Print Assumptions c08_compact_view_unchanged.

(** With uniq the view of a session is not the deduplicated view: an entry whose later copy is pending removal
    disappears. *)
Theorem c08_uniq_view_refuted : exists G T tag m r m' r',
  wf_master (length G) m /\ rem_current m r /\ tag_ranges tag /\ 51 < length G /\ 51 <= length T /\
  compact_rewrite G T tag 0 true m [r] = Some (m', [r'], tag_text tag) /\
  map v_text (view_master m r) = [lit "a"; lit "b"; lit "a"; lit "c"] /\
  map v_text (view_master m' r') = [lit "b"; lit "c"].
Proof.
  exists exG, exT, ex_newtag, dup_master, (Some (rem_file (Some ex_tag) [22])). do 2 eexists.
  split; [|split; [|split; [|split; [|split; [|split; [|split]]]]]].
  - split.
    + split; [right; exists (removelast dup_master), LF; split; reflexivity|]. split.
      * unfold lines_fit. vm_compute. repeat constructor.
      * vm_compute. discriminate.
    + exists ex_tag, (skipn 14 dup_master). split; [reflexivity|exact ex_tag_good].
  - exists ex_tag, (skipn 14 dup_master), [22]. split; [reflexivity|]. split; [exact ex_tag_good|]. split; [reflexivity|].
    repeat constructor.
  - repeat split.
  - cbn; lia.
  - cbn; lia.
  - vm_compute. reflexivity.
  - vm_compute. reflexivity.
  - vm_compute. reflexivity.
Qed.
Print Assumptions c08_uniq_view_refuted.

(** Non-vacuity: ex_master (tag, "dir", a stamped "cd x", "dir /s") with one pending removal of "dir". *)
Example c07_c08_example :
  match compact_rewrite exG exT ex_newtag 2 false ex_master [s_rem ex_sess; None] with
  | Some (m', [r1; r2], t) =>
      (map shown_as (visible none_removed m'), map v_text (view_master m' r1), map v_text (view_master m' r2), r1)
  | _ => ([], [], [], None)
  end =
  ([(lit "cd x", lit "9"); (lit "dir /s", [])], [lit "cd x"; lit "dir /s"], [lit "cd x"; lit "dir /s"],
   Some (tag_text ex_newtag ++ [LF])).
Proof. vm_compute. reflexivity. Qed.

Example c08_example :
  match compact_rewrite exG exT ex_newtag 0 true dup_master [Some (rem_file (Some ex_tag) [16; 20])] with
  | Some (m', [r1], t) => (map v_text (visible none_removed m'), map v_text (view_master m' r1), r1)
  | _ => ([], [], None)
  end = ([lit "b"; lit "c"; lit "a"], [lit "a"], Some (tag_text ex_newtag ++ [LF] ++ lit "28" ++ [LF] ++ lit "30" ++ [LF])).
Proof. vm_compute. reflexivity. Qed.

Example c07_hyps : limit_ok 2 false (visible none_removed ex_master) /\ limit_ok 0 true (visible none_removed dup_master)
  /\ tag_ranges ex_newtag /\ (N.of_nat (length ex_master + 50) <= max_off)%N.
Proof. split; [left; auto|]. split; [right; left; auto|]. split; [repeat split|]. vm_compute. discriminate. Qed.
