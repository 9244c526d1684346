(** C23, C58: string buffers. *)
From Verif Require Import Base StrModel StrSpec StrProofs.

(** Everything below is for every capacity limit, every contents of fresh memory, and every program: any number of strings
    of any capacities, any sequence of operations, moves, detachments and destructions ([sreach]). *)
Section Claims.
Variable max_size : nat.
Variable fresh : nat -> nat -> list N.
Hypothesis Hfresh : forall b n, length (fresh b n) = n.
Hypothesis Hmax : 1 <= max_size.

Lemma at_reach w i s : sreach max_size fresh w -> get (sw_strs w) i = Some s ->
  wf max_size s /\ hwf (sw_heap w) /\ hown (sw_heap w) s.
Proof.
  intros Hr Hg. destruct (sreach_inv _ _ Hfresh Hmax w Hr) as [I L]. destruct (get_split _ _ _ Hg) as (a & b & E & _). rewrite E in *.
  split; [apply L, in_or_app; right; left; auto|]. split; [apply I|].
  apply (inv2_hown _ _ (owns (a ++ b) ++ sw_det w)). eapply inv2_perm; [apply owns_split|exact I].
Qed.

(** ** C23 *)

(** Strings are terminated within their capacity, their length is that of the contents. *)
Theorem c23_terminated w i s : sreach max_size fresh w -> get (sw_strs w) i = Some s ->
  s_size s <= length (s_mem s) /\ length (contents s) < s_size s /\ nth_error (s_mem s) (length (contents s)) = Some 0%N /\
  contents s = firstn (length (contents s)) (s_mem s) /\
  slength max_size s = Some (length (contents s), set_len s (length (contents s))) /\
  (forall k, index max_size s k = Some (nth k (contents s) 0%N)).
Proof.
  intros Hr Hg. destruct (at_reach w i s Hr Hg) as (W & _). destruct (slength_ok _ _ Hfresh Hmax s W) as (E & H2 & H3 & H4 & _).
  split; [apply (wf_size _ _ W)|]. split; [auto|]. split; [auto|]. split; [auto|]. split; [auto|].
  intro k. unfold index. rewrite E. rewrite s_mem_len. destruct (Nat.ltb_spec k (length (contents s))) as [Hk|Hk].
  - rewrite <- (nth_error_firstn (length (contents s))) by auto. rewrite <- H4. apply nth_error_nth'. auto.
  - rewrite nth_overflow by lia. reflexivity.
Qed.

(** Appending: the old contents followed by a prefix of the argument (cut at its first NUL), complete iff the result is true;
    a growable string gets everything unless it would exceed the capacity limit. *)
Theorem c23_concat w i s src n : sreach max_size fresh w -> get (sw_strs w) i = Some s ->
  match n with Some k => k <= length src \/ has_nul src | None => has_nul src end ->
  let len := length (contents s) in
  let k := match n with Some k => k | None => length (cstr src) end in
  exists h' s' r, concat max_size fresh (sw_heap w) s src n = Some (h', s', r) /\
    contents s' = contents s ++ firstn (s_size s' - 1 - len) (firstn k (cstr src)) /\
    (r = true <-> len + k < s_size s') /\
    (r = true -> contents s' = contents s ++ firstn k (cstr src)) /\
    (s_grow s = false -> s_size s' = s_size s) /\
    (s_grow s = true -> (len + k + 64) / 64 * 64 <= max_size -> r = true).
Proof.
  intros Hr Hg Hs len k. destruct (at_reach w i s Hr Hg) as (W & Hh & Ho).
  destruct (concat_ok _ _ Hfresh Hmax (sw_heap w) s src n W Hh Ho Hs) as (h' & s' & r & E & _ & _ & _ & _ & C & R1 & R2 & R3).
  exists h', s', r. split; [auto|]. split; [auto|]. split; [auto|]. split; [|auto].
  intro Er. apply R1 in Er. rewrite C. f_equal. apply firstn_all2. rewrite firstn_length. subst k. destruct n; lia.
Qed.

Theorem c23_concat_no_truncate w i s src n : sreach max_size fresh w -> get (sw_strs w) i = Some s -> n <= length src ->
  exists h' s' r, concat_nt max_size fresh (sw_heap w) s src n = Some (h', s', r) /\
    contents s' = (if r then contents s ++ firstn n src else contents s) /\
    (s_grow s = false -> (r = true <-> n = 0 \/ length (contents s) + n < s_size s)) /\
    (s_grow s = true -> (length (contents s) + n + 64) / 64 * 64 <= max_size -> r = true).
Proof.
  intros Hr Hg Hs. destruct (at_reach w i s Hr Hg) as (W & Hh & Ho).
  destruct (concat_nt_ok _ _ Hfresh Hmax (sw_heap w) s src n W Hh Ho Hs) as (h' & s' & r & E & W' & _ & _ & _ & C & R1 & R2 & R3).
  exists h', s', r. split; [auto|]. split; [auto|]. split; [|auto]. intro Hf. specialize (R1 Hf).
  destruct r; split; intro Hx; auto; try discriminate.
  - destruct (slength_ok _ _ Hfresh Hmax s' W') as (_ & Hl & _). rewrite C, app_length, firstn_length in Hl. right. lia.
  - exfalso. specialize (R2 eq_refl). destruct Hx as [->|Hx]; [discriminate|lia].
Qed.

Theorem c23_copy w i s src : sreach max_size fresh w -> get (sw_strs w) i = Some s -> has_nul src ->
  exists h' s' r, copy max_size fresh (sw_heap w) s src = Some (h', s', r) /\
    contents s' = firstn (s_size s' - 1) (cstr src) /\
    (r = true <-> length (cstr src) < s_size s') /\
    (s_grow s = false -> s_size s' = s_size s) /\
    (s_grow s = true -> (length (cstr src) + 64) / 64 * 64 <= max_size -> r = true).
Proof.
  intros Hr Hg Hs. destruct (at_reach w i s Hr Hg) as (W & Hh & Ho).
  destruct (copy_ok _ _ Hfresh Hmax (sw_heap w) s src W Hh Ho Hs) as (h' & s' & r & E & _ & _ & _ & _ & C & R).
  exists h', s', r. auto.
Qed.

(** truncate, for positions within the contents, trim, clear. *)
Theorem c23_truncate_trim_clear w i s : sreach max_size fresh w -> get (sw_strs w) i = Some s ->
  (forall n, n <= length (contents s) -> exists s', truncate s n = Some s' /\ contents s' = firstn n (contents s)) /\
  (exists s', trim max_size s = Some s' /\ contents s' = trim_front (trim_back (contents s))) /\
  (exists s', clear s = Some s' /\ contents s' = []).
Proof.
  intros Hr Hg. destruct (at_reach w i s Hr Hg) as (W & Hh & Ho). split; [|split].
  - intros n Hn. destruct (truncate_ok _ _ Hfresh Hmax s n W) as (s' & E & _ & _ & _ & _ & C). exists s'. auto.
  - destruct (trim_ok _ _ Hfresh Hmax s W) as (s' & E & _ & _ & _ & _ & C). exists s'. auto.
  - destruct (clear_ok _ _ Hfresh Hmax s W) as (s' & E & _ & C & _). exists s'. auto.
Qed.

(** Formatted append, narrow characters. *)
Theorem c23_format w i s f : sreach max_size fresh w -> get (sw_strs w) i = Some s -> no_nul (contents s) -> no_nul f ->
  let len := length (contents s) in
  exists h' s' r, format_append8 max_size fresh (sw_heap w) s f = Some (h', s', r) /\
    contents s' = contents s ++ firstn (s_size s' - 1 - len) f /\
    (r = true <-> len + length f < s_size s') /\
    (s_grow s = false -> s_size s' = s_size s) /\
    (s_grow s = true -> (len + length f + 64) / 64 * 64 <= max_size -> r = true).
Proof.
  intros Hr Hg N1 N2 len. destruct (at_reach w i s Hr Hg) as (W & Hh & Ho).
  destruct (format8_ok _ _ Hfresh Hmax (sw_heap w) s f W Hh Ho) as (h' & s' & r & E & _ & _ & _ & _ & C & R).
  exists h', s', r. auto.
Qed.

(** Formatted append, wide characters: the same contents, but for a string that cannot grow the result says that the text is
    complete whenever the string was not empty before. *)
Theorem c23_format_wide w i s f : sreach max_size fresh w -> get (sw_strs w) i = Some s -> no_nul (contents s) -> no_nul f ->
  let len := length (contents s) in
  exists h' s' r, format_append16 max_size fresh (sw_heap w) s f = Some (h', s', r) /\
    contents s' = contents s ++ firstn (s_size s' - 1 - len) f /\
    (s_grow s = true -> (r = true <-> len + length f < s_size s')) /\
    (s_grow s = false -> (r = true <-> len + length f < s_size s' \/ 1 <= len)) /\
    (s_grow s = false -> s_size s' = s_size s) /\
    (s_grow s = true -> (len + length f + 64) / 64 * 64 <= max_size -> r = true).
Proof.
  intros Hr Hg N1 N2 len. destruct (at_reach w i s Hr Hg) as (W & Hh & Ho).
  destruct (format16_ok _ _ Hfresh Hmax (sw_heap w) s f W Hh Ho) as (h' & s' & r & E & _ & _ & _ & _ & C & R).
  exists h', s', r. auto.
Qed.

(** Appending converted text (c20, c22); the result is the number of units appended. *)
Theorem c23_converted w i s full : sreach max_size fresh w -> get (sw_strs w) i = Some s -> no_nul (contents s) -> no_nul full ->
  let len := length (contents s) in
  exists h' s' r, append_converted max_size fresh (sw_heap w) s full = Some (h', s', r) /\
    contents s' = contents s ++ firstn r full /\ r = Nat.min (length full) (s_size s' - 1 - len) /\
    (s_grow s = false -> s_size s' = s_size s) /\
    (s_grow s = true -> (len + length full + 64) / 64 * 64 <= max_size -> r = length full).
Proof.
  intros Hr Hg N1 N2 len. destruct (at_reach w i s Hr Hg) as (W & Hh & Ho).
  destruct (converted_ok _ _ Hfresh Hmax (sw_heap w) s full W Hh Ho) as (h' & s' & r & E & _ & _ & _ & _ & C & R & R2).
  exists h', s', r. split; [auto|]. split; [|auto]. rewrite C by auto. f_equal. rewrite R. fold len.
  destruct (Nat.min_spec (length full) (s_size s' - 1 - len)) as [[A ->]|[A ->]]; [|auto].
  rewrite !firstn_all2 by lia. reflexivity.
Qed.

(** Appending without double quotes, and appending spaces. *)
Theorem c23_strip_quotes_spaces w i s src num : sreach max_size fresh w -> get (sw_strs w) i = Some s -> no_nul src ->
  let len := length (contents s) in
  let text := filter (fun u => negb (u =? 34)%N) src in
  (exists h' s', strip_quotes max_size fresh (sw_heap w) s src = Some (h', s') /\
    (s_grow s = false -> contents s' = contents s ++ firstn (s_size s - 1 - len) text) /\
    (s_grow s = true -> (len + length src + 64) / 64 * 64 <= max_size -> contents s' = contents s ++ text)) /\
  (exists h' s', concat_spaces max_size fresh (S num) (sw_heap w) s num = Some (h', s') /\
    (s_grow s = false -> contents s' = contents s ++ repeat 32%N (Nat.min num (s_size s - 1 - len))) /\
    (s_grow s = true -> (len + num + 64) / 64 * 64 <= max_size -> contents s' = contents s ++ repeat 32%N num)).
Proof.
  intros Hr Hg Hn len text. destruct (at_reach w i s Hr Hg) as (W & Hh & Ho). split.
  - destruct (strip_quotes_ok _ _ Hfresh Hmax (sw_heap w) s src W Hh Ho Hn) as (h' & s' & E & _ & _ & _ & F & T).
    exists h', s'. split; [auto|]. split; [|exact T]. intro Hf. apply F; auto.
  - destruct (concat_spaces_ok _ _ Hfresh Hmax num (S num) (sw_heap w) s (Nat.lt_succ_diag_r _) W Hh Ho) as (h' & s' & E & _ & _ & _ & F & T).
    exists h', s'. split; [auto|]. split; [|exact T]. intro Hf. apply F; auto.
Qed.

(** ** C58 *)

(** Every allocated block is owned by exactly one string or caller; every step a program may take succeeds: no access outside
    a buffer, no double free. *)
Theorem c58_ownership w : sreach max_size fresh w ->
  NoDup (owns (sw_strs w) ++ sw_det w) /\
  (forall x, In x (h_live (sw_heap w)) <-> In x (owns (sw_strs w) ++ sw_det w)) /\
  (forall st, sstep_ok max_size w st -> exists w', sstep_do max_size fresh w st = Some w').
Proof.
  intro Hr. pose proof (sreach_inv _ _ Hfresh Hmax w Hr) as I. split; [apply I|]. split; [apply I|].
  intros st Hs. destruct (sstep_ok_inv _ _ Hfresh Hmax w st I Hs) as (w' & E & _). eauto.
Qed.

(** Once all strings are destroyed and callers freed what they detached, nothing is allocated. *)
Theorem c58_no_leak w : sreach max_size fresh w -> (forall i, get (sw_strs w) i = None) -> sw_det w = [] -> h_live (sw_heap w) = [].
Proof.
  intros Hr Hg Hd. destruct (c58_ownership w Hr) as (_ & H & _).
  assert (Ho : owns (sw_strs w) = []).
  { clear - Hg. revert Hg. generalize (sw_strs w). intro l. induction l as [|o l IH]; intro Hg; [reflexivity|]. cbn [owns flat_map].
    destruct o as [s|]; [specialize (Hg 0); discriminate|]. apply IH. intro i. exact (Hg (S i)). }
  rewrite Ho, Hd in H. destruct (h_live (sw_heap w)) as [|x l]; [reflexivity|]. exfalso. apply (H x). left; auto.
Qed.

(** Moving between strings of the same type moves the contents; the source is then empty, or unchanged if it did not own memory. *)
Theorem c58_move w i j s r : sreach max_size fresh w -> get (sw_strs w) i = Some s -> get (sw_strs w) j = Some r -> i <> j ->
  s_grow s = s_grow r -> length (s_inl s) = length (s_inl r) -> no_nul (contents r) -> (own r = [] -> s_size r = length (s_inl r)) ->
  exists h' s' r', move_str max_size fresh (sw_heap w) s r = Some (h', s', r') /\
    (own r = [] \/ s_grow s = true -> contents s' = contents r) /\
    (own r = [] -> r' = r) /\ (own r <> [] -> contents r' = []).
Proof.
  intros Hr Hi Hj Hij Hg Hl Hn Hs. pose proof (sreach_inv _ _ Hfresh Hmax w Hr) as [I L].
  destruct (get_split _ _ _ Hi) as (a & b & E & Hla & _). rewrite E in *. destruct (live_split _ _ _ _ L) as [Ws L'].
  subst i. destruct (get_other _ _ Hfresh Hmax a s b j r Hj) as (a' & b' & Eab & _); [auto|].
  pose proof (inv2_perm _ _ _ (owns_split a s b (sw_det w)) I) as I'. rewrite Eab in I', L'. destruct (live_split _ _ _ _ L') as [Wr _].
  pose proof (inv2_perm _ _ _ (Permutation.Permutation_app_head (own s) (owns_split a' r b' (sw_det w))) I') as I''.
  destruct (move_str_ok _ _ Hfresh Hmax (sw_heap w) s r _ Ws Wr I'' Hg) as (h' & s' & r' & Em & _ & _ & _ & _ & _ & A & B).
  exists h', s', r'. split; [auto|]. destruct (own r) as [|x l] eqn:Eo.
  - destruct (A eq_refl) as [A1 A2]. split; [intros _; apply A2; auto|]. split; [auto|congruence].
  - destruct B as [B1 B2]; [discriminate|]. split; [intros [Hx|Hx]; [discriminate|auto]|]. split; [discriminate|auto].
Qed.
Theorem c58_move_moveable w i j s r : sreach max_size fresh w -> get (sw_strs w) i = Some s -> get (sw_strs w) j = Some r -> i <> j ->
  length (s_inl s) = 1 -> length (s_inl r) = 1 -> no_nul (contents r) ->
  exists h' s' r', move_moveable (sw_heap w) s r = Some (h', s', r') /\
    (own r <> [] -> contents s' = contents r /\ contents r' = []) /\ (own r = [] -> contents s' = []).
Proof.
  intros Hr Hi Hj Hij Hl1 Hl2 Hn. pose proof (sreach_inv _ _ Hfresh Hmax w Hr) as [I L].
  destruct (get_split _ _ _ Hi) as (a & b & E & Hla & _). rewrite E in *. destruct (live_split _ _ _ _ L) as [Ws L'].
  subst i. destruct (get_other _ _ Hfresh Hmax a s b j r Hj) as (a' & b' & Eab & _); [auto|].
  pose proof (inv2_perm _ _ _ (owns_split a s b (sw_det w)) I) as I'. rewrite Eab in I', L'. destruct (live_split _ _ _ _ L') as [Wr _].
  pose proof (inv2_perm _ _ _ (Permutation.Permutation_app_head (own s) (owns_split a' r b' (sw_det w))) I') as I''.
  destruct (move_moveable_ok _ _ Hfresh Hmax (sw_heap w) s r _ Ws Wr I'' Hl1 Hl2) as (h' & s' & r' & Em & _ & _ & _ & _ & A & B).
  exists h', s', r'. split; [auto|]. destruct (own r) as [|x l] eqn:Eo.
  - split; [congruence|auto].
  - split; [|discriminate]. intros _. split; [auto|]. apply B; discriminate.
Qed.
End Claims.

(** The wide version reports complete text though it is cut: "a" and "bcdefg" in a buffer of four. *)
Theorem c23_format_wide_result_refuted :
  ~ (forall max_size fresh w i s f h' s', (forall b n, length (fresh b n) = n) -> sreach max_size fresh w -> get (sw_strs w) i = Some s ->
       format_append16 max_size fresh (sw_heap w) s f = Some (h', s', true) -> contents s' = contents s ++ f).
Proof.
  intro H.
  set (fr := fun _ n : nat => repeat 7%N n).
  assert (R : sreach 200 fr (mkSW (mkH 0 []) [Some (mkS [97;0;9;9]%N None 4 1 false)] [])).
  { apply (sreach_step _ _ (mkSW (mkH 0 []) [Some (mkS [0;9;9;9]%N None 4 0 false)] []) (WOp 0 (OCopy [97;0]%N))).
    - apply (sreach_step _ _ (mkSW (mkH 0 []) [] []) (WNew [9;9;9;9]%N false)); [apply sreach_init|cbn [sstep_ok length]; lia|reflexivity].
    - intros s Hs. right; left; reflexivity.
    - reflexivity. }
  specialize (H 200 fr (mkSW (mkH 0 []) [Some (mkS [97;0;9;9]%N None 4 1 false)] []) 0 (mkS [97;0;9;9]%N None 4 1 false) [98;99;100;101;102;103]%N (mkH 0 []) (mkS [97;98;99;0]%N None 4 0 false)).
  discriminate H.
  - intros b n. apply repeat_length.
  - exact R.
  - reflexivity.
  - reflexivity.
Qed.

Print Assumptions c23_terminated.
Print Assumptions c23_concat.
Print Assumptions c23_concat_no_truncate.
Print Assumptions c23_copy.
Print Assumptions c23_truncate_trim_clear.
Print Assumptions c23_format.
Print Assumptions c23_format_wide.
Print Assumptions c23_converted.
Print Assumptions c23_strip_quotes_spaces.
Print Assumptions c23_format_wide_result_refuted.
Print Assumptions c58_ownership.
Print Assumptions c58_no_leak.
Print Assumptions c58_move.
Print Assumptions c58_move_moveable.

(** ** Examples: a program with a growing string, a fixed one, a moved one and a detached block *)
Definition ex_fresh (_ n : nat) : list N := repeat 7%N n.
Definition ex_prog : list sstep :=
  [ WNew [1;1;1;1]%N true; WOp 0 (OConcat [97;98;99;0]%N None); WOp 0 (OConcat [100;101;102;0]%N None);
    WNew [1;1;1;1]%N true; WMove 1 0; WNew [5]%N true; WOp 2 (OCopy [120;121;0]%N); WNew [6]%N true; WMoveM 3 2; WDetach 3 ].
Definition ex_world : sworld :=
  match srun 200 ex_fresh (mkSW (mkH 0 []) [] []) ex_prog with Some w => w | None => mkSW (mkH 9 []) [] [] end.

Ltac go st tac :=
  match goal with
  | H : sreach 200 ex_fresh ?w |- _ =>
      let r := eval vm_compute in (sstep_do 200 ex_fresh w st) in
      match r with
      | Some ?x => let H' := fresh "R" in
          assert (H' : sreach 200 ex_fresh x) by (apply (sreach_step _ _ w st); [exact H|tac|vm_compute; reflexivity]); clear H
      end
  end.
Example ex_reach : sreach 200 ex_fresh ex_world.
Proof.
  pose proof (sreach_init 200 ex_fresh) as R.
  go (WNew [1;1;1;1]%N true) ltac:(cbn [sstep_ok length]; lia).
  go (WOp 0 (OConcat [97;98;99;0]%N None)) ltac:(intros s _; do 3 right; left; reflexivity).
  go (WOp 0 (OConcat [100;101;102;0]%N None)) ltac:(intros s _; do 3 right; left; reflexivity).
  go (WNew [1;1;1;1]%N true) ltac:(cbn [sstep_ok length]; lia).
  go (WMove 1 0) ltac:(intros s r Hs Hr; injection Hs as <-; injection Hr as <-; reflexivity).
  go (WNew [5]%N true) ltac:(cbn [sstep_ok length]; lia).
  go (WOp 2 (OCopy [120;121;0]%N)) ltac:(intros s _; do 2 right; left; reflexivity).
  go (WNew [6]%N true) ltac:(cbn [sstep_ok length]; lia).
  go (WMoveM 3 2) ltac:(intros s r Hs Hr; injection Hs as <-; injection Hr as <-; split; reflexivity).
  go (WDetach 3) ltac:(intros s Hs; injection Hs as <-; reflexivity).
  replace ex_world with (mkSW (sw_heap ex_world) (sw_strs ex_world) (sw_det ex_world)) by (vm_compute; reflexivity).
  vm_compute. vm_compute in R. exact R.
Qed.
Example ex_world_is : map (fun o => match o with Some s => (contents s, own s, s_size s) | None => ([], [], 0) end) (sw_strs ex_world) =
   [([], [], 4); ([97;98;99;100;101;102]%N, [0], 64); ([], [], 1); ([], [], 1)] /\ sw_det ex_world = [1] /\ h_live (sw_heap ex_world) = [1; 0].
Proof. vm_compute. split; [|split]; reflexivity. Qed.
Example ex_fixed : exists s', do_op 200 ex_fresh (mkH 0 []) (mkS [0;1;1;1]%N None 4 0 false) (OConcat [97;98;99;100;0]%N None) = Some (mkH 0 [], s') /\
  contents s' = [97;98;99]%N.
Proof. eexists. vm_compute. split; reflexivity. Qed.
