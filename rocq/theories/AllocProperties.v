(** C31: the linear allocator. *)
From Verif Require Import Base AllocModel AllocSpec AllocProofs.

(** Whatever is done with any number of allocators, and wherever malloc fails: no operation goes wrong (uses a block
    that is not allocated, frees one twice, ...), the pieces handed out lie in allocated blocks behind the links, keep
    what was stored in them, and no two of them overlap. *)
Theorem c31_safe : forall ops, Forall op_ok ops ->
  exists m l, run init ops = Some (m, l) /\ (forall p, In p l -> piece_ok m p) /\ ForallOrdPairs (fun p q => ~ overlap p q) l.
Proof.
  intros ops Ho. destruct (run_ok ops init init_ok Ho) as ([m l] & E & ch & H). exists m, l. split; [exact E|]. cbn [fst snd] in H.
  split; [intros p Hp; apply (I7 _ _ _ H p Hp)|apply (I8 _ _ _ H)].
Qed.
Print Assumptions c31_safe.

(** Once all allocators are cleared (or destroyed), every block has been freed. *)
Theorem c31_no_leak : forall n ops, Forall op_ok ops -> Forall (slots n) ops ->
  exists m, run init (ops ++ map Clear (seq 0 n)) = Some (m, []) /\ forall k, hp m k = None.
Proof.
  intros n ops Ho Hsl. destruct (run_ok ops init init_ok Ho) as (s1 & E1 & H1).
  assert (Hgen : forall c a s, inv s -> exists s', run s (map Clear (seq a c)) = Some s' /\ inv s' /\
            (forall i, i < a \/ a + c <= i -> al (fst s') i = al (fst s) i) /\ (forall i, a <= i < a + c -> a_ptr (al (fst s') i) = None)).
  { induction c as [|c IH]; intros a s Hs; [exists s; split; [reflexivity|]; split; [exact Hs|]; split; [reflexivity|intros; lia]|].
    cbn [seq map run]. destruct s as [m l]. destruct Hs as [ch Hs]. cbn [fst snd] in Hs. destruct (free_chain_ok false a m l ch Hs) as (m1 & ch1 & E2 & H2 & _ & Ea & En).
    cbn [step]. rewrite E2. destruct (IH (S a) (m1, drop a l)) as (s' & E3 & H3 & Hk & Hn); [exists ch1; exact H2|]. exists s'. split; [exact E3|]. split; [exact H3|].
    split.
    - intros i Hi. rewrite Hk by lia. cbn [fst]. apply Ea. lia.
    - intros i Hi. destruct (Nat.eq_dec i a) as [->|N]; [|apply Hn; lia]. rewrite Hk by lia. cbn [fst]. apply (En eq_refl). }
  destruct (Hgen n 0 s1 H1) as ([m l] & E2 & [ch H2] & Hk & Hn). cbn [fst snd] in *.
  assert (Hnone : forall i, a_ptr (al m i) = None).
  { intro i. destruct (Nat.lt_ge_cases i n) as [Hi|Hi]; [apply Hn; lia|]. rewrite Hk by lia. rewrite (run_al n ops init s1 i Hsl E1 Hi). reflexivity. }
  assert (Hch : forall i, ch i = []).
  { intro i. pose proof (I1 _ _ _ H2 i) as Hc. rewrite Hnone in Hc. destruct (ch i); [reflexivity|]. destruct Hc as [K _]. discriminate. }
  exists m. split.
  - rewrite run_app, E1, E2. f_equal. f_equal. destruct l as [|p l]; [reflexivity|]. destruct (I7 _ _ _ H2 p (or_introl eq_refl)) as [K _]. rewrite Hch in K. destruct K.
  - intro k. destruct (hp m k) eqn:E; [|reflexivity]. assert (K : hp m k <> None) by congruence. destruct (I4 _ _ _ H2 k K) as [i Hi]. rewrite Hch in Hi. destruct Hi.
Qed.
Print Assumptions c31_no_leak.

(** As long as malloc succeeds (and pages can hold their link), memory is handed out. *)
Theorem c31_succeeds : forall ops m l i size, Forall op_ok ops -> run init ops = Some (m, l) ->
  (0 < size < 4294967296)%N -> (word <= a_max (al m i))%N ->
  exists k off m', alloc true true i size m = Some (Some (k, off), m').
Proof.
  intros ops m l i size Ho E Hs Hm. destruct (run_ok ops init init_ok Ho) as (s & E' & ch & H). rewrite E in E'. injection E' as <-. cbn [fst snd] in H.
  destruct (alloc_ok true true i size m l ch H) as (r & m' & Ea & _ & Hr); [lia|]. destruct r as [[k off]|]; [exists k, off, m'; exact Ea|]. exfalso. clear Hr.
  unfold alloc in Ea. destruct (N.eqb_spec size 0); [lia|].
  assert (Hnp : exists m1, new_page true i m = Some (true, m1) /\ exists p, a_ptr (al m1 i) = Some p).
  { unfold new_page. destruct (N.ltb_spec (a_max (al m i)) word); [lia|]. unfold malloc, set_link. cbn [hp]. rewrite upd_same. eexists. split; [reflexivity|].
    cbn [set_al al]. rewrite upd_same. eexists. reflexivity. }
  destruct Hnp as (m1 & En & p & Ep).
  destruct (oversized (al m i) size).
  - destruct (a_ptr (al m i)) as [q|] eqn:Eq.
    + unfold malloc in Ea. cbn [al] in Ea. rewrite Eq in Ea. repeat match type of Ea with match ?x with _ => _ end = _ => destruct x; try discriminate end.
    + rewrite En in Ea. unfold malloc in Ea. cbn [al] in Ea. rewrite Ep in Ea. repeat match type of Ea with match ?x with _ => _ end = _ => destruct x; try discriminate end.
  - destruct (fits (al m i) size); [|rewrite En in Ea]; cbv zeta in Ea; repeat match type of Ea with match ?x with _ => _ end = _ => destruct x; try discriminate end.
Qed.
Print Assumptions c31_succeeds.

(** Pages near 4 GB: the 32-bit sum in fits overflows, and memory is taken from no page at all. *)
Theorem c31_huge_page_refuted : run init [New 0 4294967295; Alloc true true 0 2] = None.
Proof. reflexivity. Qed.
Print Assumptions c31_huge_page_refuted.

Example c31_example : let ops := [New 0 32; New 1 16; Store true true 0 [104; 105]%N; Store true true 0 (repeat 120%N 40); Alloc true true 0 20; Alloc true true 1 4;
                                  Move 1 0; Alloc false true 0 3; Alloc true true 0 3] in
  Forall op_ok ops /\ Forall (slots 2) ops /\
  match run init ops with
  | Some (m, l) => map (fun p => (p_al p, p_blk p, p_off p, p_len p)) l = [(0, 3, 8%N, 3%N); (1, 0, 11%N, 20%N); (1, 1, 8%N, 41%N); (1, 0, 8%N, 3%N)]
  | None => False
  end.
Proof.
  cbv zeta. split; [repeat (constructor; [vm_compute; first [discriminate|exact I|reflexivity]|]); constructor|].
  split; [repeat (constructor; [cbn; lia|]); constructor|]. vm_compute. reflexivity.
Qed.
