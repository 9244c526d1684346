(** Lists that meet the hypotheses of TlProperties.v, and keys that do harm: for each hypothesis of the theorems there, what
    happens without it. *)
From Verif Require Import Base SmallModel UtfModel UtfSpec CmpProperties TlModel TlSpec TlProofs TlMatch TlPaging TlFind TlProperties.
From Coq Require Import Sorted String.
Local Open Scope Z_scope.

Definition hit0 := has ascii_lower 1 false.
Definition begins0 := starts ascii_lower 1 false.
Notation reach0 := (reach hit0 begins0 whole).
Definition e0 : env := mkEnv false false (fun _ => false).
Definition tx (t : string) : bytes := list_ascii_of_string t.
Fixpoint plain (l : list string) (i : Z) : list row :=
  match l with [] => [] | t :: r => mkRow (tx t) (mkItem (tx t) []) i :: plain r (i + 1) end.
(** clink.scroll_offset and the number of rows of the window; a history list *)
Definition lst (offset vis : Z) : cfg := mkCfg false offset false false false true false false true vis.
Definition shown_at (c : cfg) (L : list row) (index : Z) : option st :=
  activate c (map r_entry L) (map r_item L) None (map r_entry L) index false false None.
Definition after (c : cfg) (k : key) (s : option st) : option st :=
  match s with Some s => match on_input hit0 begins0 c e0 k s with Go s' => Some s' | _ => None end | None => None end.

Lemma ascii_whole t : forallb (fun x => (0 <? N_of_ascii x)%N && (N_of_ascii x <? 128)%N) t = true -> whole t.
Proof.
  intros H. exists (map N_of_ascii t). induction t as [|x t IH]; [split; [constructor|reflexivity]|].
  cbn [forallb] in H. apply andb_prop in H. destruct H as [Hx Ht]. destruct (IH Ht) as [A B]. cbn [map flat_map]. split.
  - constructor; [unfold scalar; lia|exact A].
  - rewrite B at 1. unfold utf8. replace (N_of_ascii x <? 128)%N with true by lia. reflexivity.
Qed.
Lemma zseq_sorted L : forall i n, map r_number L = zseq i n -> StronglySorted (fun a b => r_number a < r_number b) L.
Proof.
  assert (G : forall (L : list row) i n, map r_number L = zseq i n -> StronglySorted (fun a b => r_number a < r_number b) L /\ Forall (fun r => i <= r_number r) L).
  { clear L. induction L as [|r L IH]; intros i n H; [split; constructor|]. destruct n as [|n]; [discriminate|]. cbn [map zseq] in H. injection H as H1 H2.
    destruct (IH _ _ H2) as [A B]. split.
    - constructor; [exact A|]. eapply Forall_impl; [|exact B]. intros a Ha. cbn beta in Ha. lia.
    - constructor; [lia|]. eapply Forall_impl; [|exact B]. intros a Ha. cbn beta in Ha. lia. }
  intros i n H. apply (G L i n H).
Qed.
Lemma start c L index s : c_win c = false ->
  forallb (fun r => (0 <=? r_number r) && match zth (map r_entry L) (r_number r) with Some t => eqb_bytes t (r_entry r) | None => false end) L = true ->
  map r_number L = zseq 0 (List.length L) -> Z.of_nat (List.length L) * c_vis c < 2147483648 -> shown_at c L index = Some s -> reach0 c s false.
Proof.
  intros Hw HF HN HV HA. eapply (R_start hit0 begins0 whole c L [] None (map r_entry L) index false false None s); [congruence| |exact (zseq_sorted _ _ _ HN)|exact HN|exact HV|exact HA].
  rewrite forallb_forall in HF. apply Forall_forall. intros r Hr. specialize (HF r Hr). apply andb_prop in HF. destruct HF as [H1 H2]. split; [lia|].
  destruct (zth (map r_entry L) (r_number r)) as [t|]; [|discriminate]. apply eqb_bytes_eq in H2. subst t. reflexivity.
Qed.
Lemma next c s k s' d : reach0 c s false -> forallb (fun x => (0 <? N_of_ascii x)%N && (N_of_ascii x <? 128)%N) (t_fstr s) = true ->
  match settle hit0 begins0 c e0 k (w_ign false s) with Some m => harmless c k m | None => False end ->
  after c k (Some s) = Some s' -> d = negb (is_nil (t_fstr s')) && (t_ocount s' <? t_ocount s) -> reach0 c s' d.
Proof.
  intros H1 H2 H3 H4 ->. cbn [after] in H4. destruct (on_input hit0 begins0 c e0 k s) as [s2| |] eqn:E; try discriminate. injection H4 as ->.
  apply (R_key hit0 begins0 whole c s false e0 k s' H1); [|exact E]. split; [intros _; apply ascii_whole; exact H2|]. split; [discriminate|].
  intros m Hm. rewrite Hm in H3. exact H3.
Qed.
Definition harmlessb (c : cfg) (k : key) (s : st) : bool :=
  match k with
  | k_delete _ => is_nil (t_fstr s) || negb (t_count s =? 1)
  | k_wheeldown n => (0 <=? n) && ((0 <? t_count s) || (n =? 0))
  | k_wheelup n => 0 <=? n
  | k_pgup => (t_index s =? 0) || (scroll_offset c <=? Z.min (t_count s) (c_vis c))
  | k_mouse _ _ _ _ _ speed => 0 <=? speed
  | _ => true
  end.
Lemma harmless_is c k s : harmlessb c k s = true -> harmless c k s.
Proof. destruct k; cbn [harmlessb harmless]; intros H; try exact Logic.I; try lia. apply Bool.orb_prop in H. destruct H as [H|H]; [left; apply is_nil_true; exact H|right; lia]. Qed.
Fixpoint run (c : cfg) (ks : list key) (s : st) : option st :=
  match ks with
  | [] => Some s
  | k :: r =>
      if forallb (fun x => (0 <? N_of_ascii x)%N && (N_of_ascii x <? 128)%N) (t_fstr s) &&
         match settle hit0 begins0 c e0 k (w_ign false s) with Some m => harmlessb c k m | None => false end
      then match on_input hit0 begins0 c e0 k s with
           | Go s' => if negb (is_nil (t_fstr s')) && (t_ocount s' <? t_ocount s) then None else run c r s'
           | _ => None
           end
      else None
  end.
Lemma run_reach c ks : forall s s', reach0 c s false -> run c ks s = Some s' -> reach0 c s' false.
Proof.
  induction ks as [|k ks IH]; intros s s' H E; cbn [run] in E; [injection E as <-; exact H|].
  destruct (forallb _ _ && _) eqn:E1; [|discriminate]. apply andb_prop in E1. destruct E1 as [E1 E2]. destruct (on_input hit0 begins0 c e0 k s) as [s2| |] eqn:E3; try discriminate.
  destruct (negb (is_nil (t_fstr s2)) && _) eqn:E4; [discriminate|]. apply (IH s2 s'); [|exact E]. apply (next c s k); [exact H|exact E1| | |congruence].
  - destruct (settle _ _ _ _ _ _); [apply harmless_is; exact E2|discriminate].
  - cbn [after]. rewrite E3. reflexivity.
Qed.
Definition from (c : cfg) (L : list row) (index : Z) (ks : list key) : option st := match shown_at c L index with Some s => run c ks s | None => None end.
Lemma from_reach c L index ks s : c_win c = false ->
  forallb (fun r => (0 <=? r_number r) && match zth (map r_entry L) (r_number r) with Some t => eqb_bytes t (r_entry r) | None => false end) L = true ->
  map r_number L = zseq 0 (List.length L) -> Z.of_nat (List.length L) * c_vis c < 2147483648 -> from c L index ks = Some s -> reach0 c s false.
Proof. unfold from. intros H1 H2 H3 H4 H5. destruct (shown_at c L index) as [s0|] eqn:E; [|discriminate]. apply (run_reach c ks s0 s); [|exact H5]. exact (start c L index s0 H1 H2 H3 H4 E). Qed.
Ltac walk L i ks := apply (from_reach _ L i ks); [reflexivity|vm_compute; reflexivity|reflexivity|vm_compute; reflexivity|vm_compute; reflexivity].
Definition the (o : option st) : st := match o with Some s => s | None => mkSt [] [] None [] 0 0 false [] [] 0 0 0 0 false [] false false false None false false false None end.

Definition five : list row := plain ["git add"; "make"; "git commit"; "dir"; "git push"]%string 0.

(** ** Meeting the hypotheses *)
(** Three rows of five; Down, End, a click, a filter that leaves three rows, another letter that leaves one. *)
Definition ex1 := Eval vm_compute in the (after (lst 0 3) k_down (after (lst 0 3) k_down (shown_at (lst 0 3) five 1))).
Example ex1_reach : reach0 (lst 0 3) ex1 false.
Proof. walk five 1 [k_down; k_down]. Qed.
Example ex1_ok : t_index ex1 = 3 /\ t_top ex1 = 1 /\ t_pend ex1 = None /\ 0 < t_count ex1 /\ table ex1 five.
Proof. split; [reflexivity|]. split; [reflexivity|]. split; [reflexivity|]. split; [reflexivity|]. split; [reflexivity|]. split; [exists []; reflexivity|]. split; reflexivity. Qed.
Example ex1_click : 0 <= 1 < Z.min (t_count ex1) (c_vis (lst 0 3)) /\ c_bars (lst 0 3) = true /\ scroll_offset (lst 0 3) < Z.min (t_count ex1) (c_vis (lst 0 3)).
Proof. vm_compute. split; [split; [discriminate|reflexivity]|]. split; reflexivity. Qed.
Definition ex2 := Eval vm_compute in the (after (lst 1 4) k_down (after (lst 1 4) (k_text (tx "GIT")) (after (lst 1 4) k_togglefilter (shown_at (lst 1 4) five 4)))).
Example ex2_reach : reach0 (lst 1 4) ex2 false.
Proof. walk five 4 [k_togglefilter; (k_text (tx "GIT")); k_down]. Qed.
(** The second of the three that contain "git" is "git commit", the third entry. *)
Example ex2_ok : t_pend ex2 = None /\ table ex2 five /\ t_fstr ex2 = tx "GIT" /\ t_count ex2 = 3 /\ selected hit0 ex2 five = Some (mkRow (tx "git commit") (mkItem (tx "git commit") []) 2) /\
  t_filt ex2 = true /\ t_nf ex2 = false /\ whole (t_fstr ex2).
Proof.
  split; [reflexivity|]. split; [split; [reflexivity|]; split; [exists []; reflexivity|]; split; reflexivity|]. split; [reflexivity|]. split; [reflexivity|]. split; [vm_compute; reflexivity|].
  split; [reflexivity|]. split; [reflexivity|]. apply ascii_whole. reflexivity.
Qed.
Example ex2_enter : on_input hit0 begins0 (lst 1 4) e0 k_enter ex2 = Ended (Chosen true 2 (tx "git commit")) (w_ign false ex2).
Proof. vm_compute. reflexivity. Qed.
Definition ex3 := Eval vm_compute in the (after (lst 1 4) (k_delete true) (Some ex2)).
Example ex3_reach : reach0 (lst 1 4) ex3 true.
Proof. apply (next _ ex2 (k_delete true)); [exact ex2_reach|vm_compute; reflexivity|vm_compute; right; discriminate|vm_compute; reflexivity|reflexivity]. Qed.
Example ex3_ok : t_ext ex3 = [tx "git add"; tx "make"; tx "dir"; tx "git push"] /\ t_count ex3 = 2 /\ t_index ex3 = 1.
Proof. vm_compute. split; [reflexivity|]. split; reflexivity. Qed.
Definition ex4 := Eval vm_compute in the (after (lst 0 3) (k_text (tx "git")) (shown_at (lst 0 3) five 1)).
Example ex4_reach : reach0 (lst 0 3) ex4 false.
Proof. walk five 1 [(k_text (tx "git"))]. Qed.
Example ex4_ok : t_index ex4 = 2 /\ t_nf ex4 = false /\ t_needle ex4 = tx "git" /\ t_filt ex4 = false /\ t_clr ex4 = false /\
  t_index (the (after (lst 0 3) k_findnext (Some ex4))) = 4 /\ t_index (the (after (lst 0 3) k_findprev (Some ex4))) = 0.
Proof. vm_compute. split; [reflexivity|]. split; [reflexivity|]. split; [reflexivity|]. split; [reflexivity|]. split; [reflexivity|]. split; reflexivity. Qed.
(** The list of F7: numbers 1 to 12; typing 12 after Home goes to the last. *)
Definition f7 : cfg := mkCfg true 0 false false true true false false true 5.
Definition dozen : list row := plain ["a";"b";"c";"d";"e";"f";"g";"h";"i";"j";"k";"l"]%string 0.
Definition ex5 := Eval vm_compute in the (activate f7 (map r_entry dozen) (map r_item dozen) (Some (map r_number dozen)) (map r_entry dozen) 3 false false None).
Example ex5_reach : reach0 f7 ex5 false.
Proof.
  apply (R_start hit0 begins0 whole f7 dozen [] (Some (map r_number dozen)) (map r_entry dozen) 3 false false None ex5); [reflexivity| |apply (zseq_sorted _ 0 12); reflexivity|reflexivity|vm_compute; reflexivity|vm_compute; reflexivity].
  apply Forall_forall. intros r Hr. assert (H : forallb (fun r => (0 <=? r_number r) && match zth (map r_entry dozen) (r_number r) with Some t => eqb_bytes t (r_entry r) | None => false end) dozen = true) by (vm_compute; reflexivity).
  rewrite forallb_forall in H. specialize (H r Hr). apply andb_prop in H. destruct H as [H1 H2]. split; [lia|]. destruct (zth _ _); [|discriminate]. apply eqb_bytes_eq in H2. subst. reflexivity.
Qed.
Example ex5_ok : t_isnum ex5 = false /\ t_index (the (after f7 (k_text (dec 12)) (Some ex5))) = 11 /\ t_index (the (after f7 (k_text (dec 1)) (Some ex5))) = 0 /\ t_index (the (after f7 (k_text (dec 40)) (Some ex5))) = 3.
Proof. vm_compute. split; [reflexivity|]. split; [reflexivity|]. split; reflexivity. Qed.

(** ** What goes wrong otherwise *)
(** Page Up in a list of two entries with clink.scroll_offset = 3 selects a third one that does not exist; Ctrl+C then reads it. *)
Definition two : list row := plain ["dir"; "make"]%string 0.
Definition bad1 := Eval vm_compute in the (shown_at (lst 3 10) two 1).
Definition bad1' := Eval vm_compute in the (after (lst 3 10) k_pgup (Some bad1)).
Example bad1_reach : reach0 (lst 3 10) bad1 false.
Proof. walk two 1 (@nil key). Qed.
Definition popup_valid_any_key : Prop := forall c s d e k s', reach0 c s d -> on_input hit0 begins0 c e k s = Go s' -> valid c s'.
Theorem popup_valid_any_key_refuted : ~ popup_valid_any_key.
Proof. intros H. assert (E : on_input hit0 begins0 (lst 3 10) e0 k_pgup bad1 = Go bad1') by (vm_compute; reflexivity). pose proof (H (lst 3 10) bad1 false e0 k_pgup bad1' bad1_reach E) as (V & _). vm_compute in V. destruct V as [_ V]. discriminate. Qed.
Definition popup_no_bad_read_any_key : Prop := forall c s d e k s' k', reach0 c s d -> on_input hit0 begins0 c e k s = Go s' -> on_input hit0 begins0 c e k' s' <> Undefined.
Theorem popup_no_bad_read_any_key_refuted : ~ popup_no_bad_read_any_key.
Proof. intros H. apply (H (lst 3 10) bad1 false e0 k_pgup bad1' k_copy bad1_reach eq_refl). vm_compute. reflexivity. Qed.

(** Page Down in a list of five entries with clink.scroll_offset = 3 goes from the second to the fourth and back, and never to the
    last. *)
Definition bad2 := Eval vm_compute in the (after (lst 3 10) k_pgdn (shown_at (lst 3 10) five 0)).
Definition bad2' := Eval vm_compute in the (after (lst 3 10) k_pgdn (Some bad2)).
Example bad2_reach : reach0 (lst 3 10) bad2 false.
Proof. walk five 0 [k_pgdn]. Qed.
Definition popup_page_down_any : Prop := forall c s d e, reach0 c s d -> t_pend s = None -> 0 < t_count s ->
  exists n s', presses hit0 begins0 c n e k_pgdn s = Go s' /\ t_index s' = t_count s' - 1.
Theorem popup_page_down_any_refuted : ~ popup_page_down_any.
Proof.
  intros H. destruct (H (lst 3 10) bad2 false e0 bad2_reach eq_refl eq_refl) as (n & s' & E1 & E2).
  assert (S1 : on_input hit0 begins0 (lst 3 10) e0 k_pgdn bad2 = Go bad2') by (vm_compute; reflexivity).
  assert (S2 : on_input hit0 begins0 (lst 3 10) e0 k_pgdn bad2' = Go bad2) by (vm_compute; reflexivity).
  assert (G : forall n, presses hit0 begins0 (lst 3 10) n e0 k_pgdn bad2 = Go bad2 /\ presses hit0 begins0 (lst 3 10) n e0 k_pgdn bad2' = Go bad2' \/
                        presses hit0 begins0 (lst 3 10) n e0 k_pgdn bad2 = Go bad2' /\ presses hit0 begins0 (lst 3 10) n e0 k_pgdn bad2' = Go bad2).
  { intros q. induction q as [|m IH]; [left; split; reflexivity|]. cbn [presses]. rewrite S1, S2. destruct IH as [[A B]|[A B]]; [right|left]; auto. }
  destruct (G n) as [[A _]|[A _]]; rewrite A in E1; injection E1 as <-; vm_compute in E2; discriminate.
Qed.

(** With a filter Ctrl+C copies another entry than the one selected. *)
Definition bad3 := Eval vm_compute in the (after (lst 0 10) (k_text (tx "dir")) (after (lst 0 10) k_togglefilter (shown_at (lst 0 10) five 0))).
Example bad3_reach : reach0 (lst 0 10) bad3 false.
Proof. walk five 0 [k_togglefilter; (k_text (tx "dir"))]. Qed.
Definition popup_copy_filtered : Prop := forall c s d e L r, reach0 c s d -> t_pend s = None -> table s L -> selected hit0 s L = Some r ->
  on_input hit0 begins0 c e k_copy s = Go (w_clip (Some (r_entry r)) (w_ign false s)).
Theorem popup_copy_filtered_refuted : ~ popup_copy_filtered.
Proof.
  intros H. specialize (H (lst 0 10) bad3 false e0 five (mkRow (tx "dir") (mkItem (tx "dir") []) 3) bad3_reach eq_refl).
  assert (T : table bad3 five) by (split; [reflexivity|]; split; [exists []; reflexivity|]; split; reflexivity). specialize (H T).
  assert (Hs : selected hit0 bad3 five = Some (mkRow (tx "dir") (mkItem (tx "dir") []) 3)) by (vm_compute; reflexivity). specialize (H Hs). vm_compute in H. discriminate.
Qed.

(** Deleting the only row that passes the filter leaves the selection at -1, and the next update of the list reads it. *)
Theorem popup_delete_filtered_refuted : ~ (forall c s d e ok, reach0 c s d -> on_input hit0 begins0 c e (k_delete ok) s <> Undefined).
Proof. intros H. apply (H (lst 0 10) bad3 false e0 true bad3_reach). vm_compute. reflexivity. Qed.
(** After deleting the last entry with a filter on, switching the filter off selects where it was before the filter: there is
    none any more. *)
Definition bad4 := Eval vm_compute in the (after (lst 0 10) (k_delete true) (after (lst 0 10) k_end (after (lst 0 10) (k_text (tx "git")) (after (lst 0 10) k_togglefilter (shown_at (lst 0 10) five 4))))).
Definition bad4_pre := Eval vm_compute in the (after (lst 0 10) k_end (after (lst 0 10) (k_text (tx "git")) (after (lst 0 10) k_togglefilter (shown_at (lst 0 10) five 4)))).
Example bad4_pre_reach : reach0 (lst 0 10) bad4_pre false.
Proof. walk five 4 [k_togglefilter; (k_text (tx "git")); k_end]. Qed.
Example bad4_reach : reach0 (lst 0 10) bad4 true.
Proof. apply (next _ bad4_pre (k_delete true)); [exact bad4_pre_reach|vm_compute; reflexivity|vm_compute; right; discriminate|vm_compute; reflexivity|reflexivity]. Qed.
Theorem popup_clear_filter_refuted : ~ (forall c s d e, reach0 c s d -> match on_input hit0 begins0 c e k_togglefilter s with Undefined => False | Ended _ _ => True | Go s' => valid c s' end).
Proof. intros H. pose proof (H (lst 0 10) bad4 true e0 bad4_reach) as V. vm_compute in V. exact V. Qed.
(** The wheel in a list in which nothing passes the filter *)
Definition bad5 := Eval vm_compute in the (after (lst 0 10) (k_text (tx "zz")) (after (lst 0 10) k_togglefilter (shown_at (lst 0 10) five 0))).
Example bad5_reach : reach0 (lst 0 10) bad5 false.
Proof. walk five 0 [k_togglefilter; (k_text (tx "zz"))]. Qed.
Definition bad5' := Eval vm_compute in the (after (lst 0 10) (k_wheeldown 3) (Some bad5)).
Theorem popup_wheel_refuted : ~ (forall c s d e n s', 0 < n -> reach0 c s d -> on_input hit0 begins0 c e (k_wheeldown n) s = Go s' -> valid c s').
Proof.
  intros H. assert (E : on_input hit0 begins0 (lst 0 10) e0 (k_wheeldown 3) bad5 = Go bad5') by (vm_compute; reflexivity).
  pose proof (H (lst 0 10) bad5 false e0 3 bad5' eq_refl bad5_reach E) as (V & _). vm_compute in V. discriminate.
Qed.
(** After a search that found nothing F4 does not filter, nor does what is typed then. *)
Definition bad6 := Eval vm_compute in the (after (lst 0 10) k_togglefilter (after (lst 0 10) (k_text (tx "zz")) (shown_at (lst 0 10) five 0))).
Example bad6_reach : reach0 (lst 0 10) bad6 false.
Proof. walk five 0 [(k_text (tx "zz")); k_togglefilter]. Qed.
Definition bad6' := Eval vm_compute in the (after (lst 0 10) (k_text (tx "x")) (Some bad6)).
Definition popup_filter_any : Prop := forall c s d e keys L s', reach0 c s d -> c_win c = false -> t_filt s = true -> e_queued e = false -> e_busy e = false -> table s L ->
  on_input hit0 begins0 c e (k_text keys) s = Go s' -> shown hit0 s' L = passing hit0 (t_needle s') L.
Theorem popup_filter_any_refuted : ~ popup_filter_any.
Proof.
  intros H. specialize (H (lst 0 10) bad6 false e0 (tx "x") five bad6' bad6_reach eq_refl eq_refl eq_refl eq_refl).
  assert (T : table bad6 five) by (split; [reflexivity|]; split; [exists []; reflexivity|]; split; reflexivity). 
  assert (E : on_input hit0 begins0 (lst 0 10) e0 (k_text (tx "x")) bad6 = Go bad6') by (vm_compute; reflexivity). specialize (H T E). vm_compute in H. discriminate.
Qed.
Print Assumptions popup_valid_any_key_refuted.
Print Assumptions popup_no_bad_read_any_key_refuted.
Print Assumptions popup_page_down_any_refuted.
Print Assumptions popup_copy_filtered_refuted.
Print Assumptions popup_delete_filtered_refuted.
Print Assumptions popup_clear_filter_refuted.
Print Assumptions popup_wheel_refuted.
Print Assumptions popup_filter_any_refuted.
