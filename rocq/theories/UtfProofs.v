(** Proofs about the UTF model. *)
From Verif Require Import Base UtfModel UtfSpec.

(** ** Bits *)

Lemma forall_lt (P : N -> bool) n : forallb P (map N.of_nat (seq 0 n)) = true ->
  forall x, (x < N.of_nat n)%N -> P x = true.
Proof.
  intros H x Hx. rewrite forallb_forall in H. apply H.
  rewrite <- (N2Nat.id x). apply in_map. apply in_seq. lia.
Qed.

Ltac enum n x H := apply N.eqb_eq; clear - H; revert x H;
  match goal with |- forall x, _ -> @?P x = true => apply (forall_lt P n) end; vm_compute; reflexivity.

Lemma lor_shift a x : (x < 64)%N -> N.lor (N.shiftl a 6) x = (a * 64 + x)%N.
Proof.
  intro H.
  assert (N.land (N.shiftl a 6) x = 0)%N as Hz.
  { rewrite <- (N.mod_small x 64) by auto. change 64%N with (2 ^ 6)%N.
    rewrite <- N.land_ones, N.land_assoc, (N.land_comm _ x), <- N.land_assoc, N.land_ones, N.shiftl_mul_pow2,
      N.mod_mul by discriminate. apply N.land_0_r. }
  rewrite <- N.lxor_lor, <- N.add_nocarry_lxor by auto. rewrite N.shiftl_mul_pow2. reflexivity.
Qed.

Lemma lor_lt a b n : (a < 2 ^ n)%N -> (b < 2 ^ n)%N -> (N.lor a b < 2 ^ n)%N.
Proof.
  intros Ha Hb. destruct (N.eq_dec (N.lor a b) 0) as [->|Hne]; [lia|].
  apply N.log2_lt_pow2; [lia|]. rewrite N.log2_lor.
  destruct (N.eq_dec n 0) as [->|Hn].
  { change (2 ^ 0)%N with 1%N in *. assert (a = 0 /\ b = 0)%N as [-> ->] by lia. now cbn in Hne. }
  apply N.max_lub_lt.
  - destruct (N.eq_dec a 0) as [->|]; [change (N.log2 0) with 0%N; lia|]. apply N.log2_lt_pow2; lia.
  - destruct (N.eq_dec b 0) as [->|]; [change (N.log2 0) with 0%N; lia|]. apply N.log2_lt_pow2; lia.
Qed.

Lemma land_lt a n : (N.land a (N.ones n) < 2 ^ n)%N.
Proof. rewrite N.land_ones. apply N.mod_upper_bound, N.pow_nonzero. discriminate. Qed.

Lemma land_fc00 c : (c < 65536)%N -> N.land c 64512 = (c / 1024 * 1024)%N.
Proof.
  intro H. change 64512%N with (N.ldiff (N.ones 16) (N.ones 10)).
  assert (forall a b, N.land c (N.ldiff a b) = N.ldiff (N.land c a) b) as ->.
  { intros a b. apply N.bits_inj. intro i. rewrite N.land_spec, !N.ldiff_spec, N.land_spec. apply andb_assoc. }
  rewrite N.land_ones, N.mod_small by exact H.
  rewrite N.ldiff_ones_r, N.shiftr_div_pow2, N.shiftl_mul_pow2. reflexivity.
Qed.

(** ** Decoding as functions on lists *)

Fixpoint dl8 (t : list N) (ax : N) (el : nat) : N * list N :=
  match t with
  | [] => (0%N, [])
  | c :: t' =>
      let ax := N.lor (N.shiftl ax 6) (N.land c 127) in
      match el with
      | S el' => dl8 t' ax el'
      | O => if (N.land c 192 <? 192)%N then (ax, t')
             else let el := if (N.land c 32 =? 0)%N then 0 else if (N.land c 16 =? 0)%N then 1 else 2 in
                  dl8 t' (N.land ax (N.shiftr 31 (N.of_nat el))) el
      end
  end.

Definition hi (c : N) : bool := (N.land c 64512 =? 55296)%N.
Definition lo (c : N) : bool := (N.land c 64512 =? 56320)%N.

Definition dl16 (t : list N) : N * list N :=
  match t with
  | [] => (0%N, [])
  | c :: t' =>
      if hi c then
        match t' with
        | [] => (65533%N, [])
        | d :: t'' => if lo d then (Z.to_N (Z.of_N (N.shiftl c 10) + Z.of_N d - 56613888), t'') else (65533%N, t')
        end
      else if lo c then (65533%N, t') else (c, t')
  end.

Lemma dl8_suffix t : forall ax el v r, t <> [] -> dl8 t ax el = (v, r) -> exists u, t = u ++ r /\ u <> [].
Proof.
  induction t as [|c t IH]; intros ax el v r Hne H; [contradiction|]. cbn [dl8] in H. cbv zeta in H.
  assert (Hgo : forall ax' el', dl8 t ax' el' = (v, r) -> exists u, c :: t = u ++ r /\ u <> []).
  { intros ax' el' H'. destruct t as [|d t].
    - cbn in H'. injection H' as <- <-. exists [c]; split; [auto|discriminate].
    - destruct (IH ax' el' v r) as (u & -> & Hu); [discriminate|auto|]. exists (c :: u); split; [auto|discriminate]. }
  destruct el as [|el']; [|eauto].
  destruct (N.land c 192 <? 192)%N; [|eauto].
  injection H as <- <-. exists [c]; split; [auto|discriminate].
Qed.

Lemma dl16_suffix t v r : t <> [] -> dl16 t = (v, r) -> exists u, t = u ++ r /\ u <> [].
Proof.
  intros Hne H. destruct t as [|c t]; [contradiction|]. cbn [dl16] in H.
  destruct (hi c).
  - destruct t as [|d t].
    + injection H as <- <-. exists [c]; split; [auto|discriminate].
    + destruct (lo d); injection H as <- <-; [exists [c; d]|exists [c]]; split; auto; discriminate.
  - destruct (lo c); injection H as <- <-; exists [c]; split; auto; discriminate.
Qed.

(** ** Iterators *)

Section Mem.
Variable mem : list N.

Lemma text_at_suffix e p u r : text_at mem e p (u ++ r) -> text_at mem e (p + length u) r.
Proof.
  intros (pre & post & Hm & Hl & Hz & He). exists (pre ++ u), post.
  rewrite <- !app_assoc in *. split; [auto|]. rewrite !app_length in *. split; [lia|].
  split; [eapply Forall_app; eauto|]. rewrite <- Nat.add_assoc. exact He.
Qed.

Lemma text_at_read e p c t : text_at mem e p (c :: t) -> nth_error mem p = Some c /\ c <> 0%N.
Proof.
  intros (pre & post & Hm & Hl & Hz & _). split.
  - rewrite Hm, nth_error_app2, Hl, Nat.sub_diag by lia. reflexivity.
  - exact (Forall_inv Hz).
Qed.

Lemma more_text e p t : text_at mem e p t -> more mem e p = Some (match t with [] => false | _ => true end).
Proof.
  intro H. destruct t as [|c t].
  - destruct H as (pre & post & Hm & Hl & _ & He). cbn [length] in He. rewrite Nat.add_0_r in He. unfold more.
    destruct He as [->|[Hp He]].
    + rewrite Nat.eqb_refl. reflexivity.
    + destruct post as [|z post]; [discriminate|]. cbn in Hp; injection Hp as ->.
      assert (nth_error mem p = Some 0%N) as Hr.
      { rewrite Hm, nth_error_app2, Hl, Nat.sub_diag by lia. reflexivity. }
      rewrite Hr. change (negb (0 =? 0)%N) with false. destruct e as [e'|]; [|auto].
      destruct (Nat.eqb p e'); auto.
  - destruct (text_at_read _ _ _ _ H) as [Hr Hc]. unfold more. rewrite Hr.
    replace (c =? 0)%N with false by lia. cbn [negb].
    destruct H as (pre & post & _ & _ & _ & He). cbn [length] in He.
    destruct e as [e'|]; [|auto].
    destruct (Nat.eqb_spec p e') as [->|]; [|auto].
    destruct He as [He|[_ He]]; [injection He as He|]; lia.
Qed.

Lemma text_at_len e p t : text_at mem e p t -> p + length t <= length mem.
Proof. intros (pre & post & -> & <- & _). rewrite !app_length. lia. Qed.

Lemma next8_loop_eq e t : forall fuel p ax el v r, text_at mem e p t -> t <> [] -> length t <= fuel ->
  dl8 t ax el = (v, r) -> next8_loop mem fuel e p ax el = Some (v, p + length t - length r).
Proof.
  induction t as [|c t IH]; intros fuel p ax el v r Ht Hne Hf Hd; [contradiction|].
  destruct fuel as [|k]; [cbn in Hf; lia|]. cbn [next8_loop]. cbn [dl8] in Hd. cbv zeta in *.
  destruct (text_at_read _ _ _ _ Ht) as [-> Hc].
  pose proof (text_at_suffix e p [c] t Ht) as Ht'. cbn [length] in Ht', Hf. rewrite Nat.add_1_r in Ht'.
  rewrite (more_text _ _ _ Ht').
  assert (Hgo : forall ax' el', dl8 t ax' el' = (v, r) ->
    (if match t with [] => false | _ => true end then next8_loop mem k e (S p) ax' el' else Some (0%N, S p)) =
    Some (v, p + S (length t) - length r)).
  { intros ax' el' H'. destruct t as [|d t].
    - cbn in H'. injection H' as <- <-. f_equal. f_equal. cbn [length]. lia.
    - rewrite (IH k (S p) ax' el' v r) by (auto; try discriminate; lia). f_equal. f_equal. cbn [length]. lia. }
  destruct el as [|el'].
  - destruct (N.land c 192 <? 192)%N.
    + injection Hd as <- <-. f_equal. f_equal. cbn [length]. lia.
    + exact (Hgo _ _ Hd).
  - exact (Hgo _ _ Hd).
Qed.

Lemma next8_eq e p t v r : text_at mem e p t -> dl8 t 0 0 = (v, r) ->
  next8 mem e p = Some (v, p + length t - length r).
Proof.
  intros Ht Hd. unfold next8. rewrite (more_text _ _ _ Ht). destruct t as [|c t].
  - cbn in Hd. injection Hd as <- <-. f_equal. f_equal. cbn; lia.
  - apply next8_loop_eq with (t := c :: t); auto; [discriminate|]. pose proof (text_at_len _ _ _ Ht). lia.
Qed.

Lemma next16_eq e p t v r : Forall (fun u => u < 65536)%N t -> text_at mem e p t -> dl16 t = (v, r) ->
  next16 mem e p = Some (v, p + length t - length r).
Proof.
  intros Hu Ht Hd. unfold next16. pose proof (text_at_len _ _ _ Ht) as Hlen.
  assert (exists k, length mem = k) as [k Hk] by eauto. rewrite Hk.
  cbn [next16_loop]. cbv zeta. rewrite (more_text _ _ _ Ht).
  destruct t as [|c t].
  { cbn in Hd. injection Hd as <- <-. f_equal. f_equal. cbn; lia. }
  destruct (text_at_read _ _ _ _ Ht) as [-> Hc].
  replace (c =? 0)%N with false by lia.
  pose proof (text_at_suffix e p [c] t Ht) as Ht'. cbn [length] in Ht'. rewrite Nat.add_1_r in Ht'.
  cbn [dl16] in Hd. fold (hi c) (lo c). cbn [length].
  rewrite (more_text _ _ _ Ht').
  destruct (hi c) eqn:Ehc.
  - destruct t as [|d t].
    { injection Hd as <- <-. f_equal. f_equal. cbn; lia. }
    destruct (text_at_read _ _ _ _ Ht') as [Hrd Hd0]. rewrite Hrd. fold (lo d).
    destruct (lo d) eqn:Eld.
    + injection Hd as <- <-. destruct k as [|k].
      { cbn [length] in Hlen. lia. }
      cbn [next16_loop]. cbv zeta. rewrite (more_text _ _ _ Ht'), Hrd.
      replace (d =? 0)%N with false by lia. fold (hi d) (lo d). rewrite Eld.
      assert (hi d = false) as ->.
      { unfold hi, lo in *. apply N.eqb_eq in Eld. rewrite Eld. reflexivity. }
      assert (N.shiftl c 10 <? 1024 = false)%N as ->.
      { rewrite N.shiftl_mul_pow2. change (2 ^ 10)%N with 1024%N. lia. }
      f_equal. f_equal. cbn [length]. lia.
    + injection Hd as <- <-. f_equal. f_equal. cbn [length]. lia.
  - change (if (0 =? 0)%N then Some (c, S p) else Some (65533%N, S p)) with (Some (c, S p)).
    change (0 <? 1024)%N with true. cbv iota.
    destruct (lo c); injection Hd as <- <-; f_equal; f_equal; cbn [length]; lia.
Qed.

Lemma valid_iter_text e p : valid_iter mem e p -> exists t, text_at mem e p t.
Proof.
  assert (Hsplit : forall l : list N, exists t post, l = t ++ post /\ Forall (fun u => u <> 0%N) t /\
            (post = [] \/ hd_error post = Some 0%N)).
  { induction l as [|x l (t & post & -> & Ht & Hp)]; [exists [], []; auto|].
    destruct (N.eq_dec x 0) as [->|Hx]; [exists [], (0%N :: t ++ post); auto|].
    exists (x :: t), post. split; auto. }
  intro H. destruct e as [e'|]; cbn in H.
  - destruct (Hsplit (firstn (e' - p) (skipn p mem))) as (t & post & Heq & Ht & Hp).
    exists t. exists (firstn p mem), (post ++ skipn (e' - p) (skipn p mem)).
    rewrite (app_assoc t post), <- Heq, firstn_skipn, firstn_skipn. split; [auto|].
    split; [rewrite firstn_length; lia|]. split; [auto|].
    assert (length t + length post = e' - p).
    { rewrite <- app_length, <- Heq, firstn_length, skipn_length. lia. }
    destruct Hp as [->|Hp]; [left; f_equal; cbn in *; lia|].
    right. destruct post as [|z post]; [discriminate|]. cbn in Hp |- *. injection Hp as ->.
    split; [auto|]. cbn in *; lia.
  - destruct (Hsplit (skipn p mem)) as (t & post & Heq & Ht & Hp).
    assert (p < length mem).
    { destruct (Nat.lt_ge_cases p (length mem)); auto. rewrite skipn_all2 in H by lia. destruct H. }
    exists t, (firstn p mem), post. rewrite <- Heq, firstn_skipn. split; [auto|].
    split; [rewrite firstn_length; lia|]. split; [auto|]. right. split; [|auto].
    destruct Hp as [->|Hp]; [|auto]. rewrite app_nil_r in Heq. rewrite Heq in H.
    rewrite Forall_forall in Ht. apply Ht in H. contradiction.
Qed.

End Mem.

(** ** Decoding a whole text *)

Fixpoint decode (dl : list N -> N * list N) (fuel : nat) (t : list N) : list N :=
  match fuel with
  | O => []
  | S k => let '(v, r) := dl t in if (v =? 0)%N then [] else v :: decode dl k r
  end.
Definition d8 (t : list N) : N * list N := dl8 t 0 0.
Definition decode8 t := decode d8 (S (length t)) t.
Definition decode16 t := decode dl16 (S (length t)) t.

(** What the decoders have in common. *)
Definition decoder (dl : list N -> N * list N) : Prop :=
  dl [] = (0%N, []) /\ forall t v r, t <> [] -> dl t = (v, r) -> exists u, t = u ++ r /\ u <> [].
Lemma d8_decoder : decoder d8.
Proof. split; [reflexivity|]. intros t v r. apply dl8_suffix. Qed.
Lemma d16_decoder : decoder dl16.
Proof. split; [reflexivity|]. intros t v r. apply dl16_suffix. Qed.

Lemma decode_fuel dl : decoder dl -> forall k1 k2 t, length t < k1 -> length t < k2 -> decode dl k1 t = decode dl k2 t.
Proof.
  intros [H0 Hs]. induction k1 as [|k1 IH]; intros k2 t H1 H2; [lia|].
  destruct k2 as [|k2]; [lia|]. cbn [decode]. destruct (dl t) as [v r] eqn:E.
  destruct (v =? 0)%N eqn:Ev; auto. f_equal.
  destruct t as [|c t]; [rewrite H0 in E; injection E as <- <-; discriminate|].
  destruct (Hs (c :: t) v r) as (u & Hu & Hne); [discriminate|auto|].
  assert (length r < length (c :: t)). { rewrite Hu, app_length. destruct u; [contradiction|cbn; lia]. }
  apply IH; lia.
Qed.

Lemma decode_cons dl u r v : decoder dl -> dl (u ++ r) = (v, r) -> v <> 0%N ->
  decode dl (S (length (u ++ r))) (u ++ r) = v :: decode dl (S (length r)) r.
Proof.
  intros Hdl H Hv. transitivity (v :: decode dl (length (u ++ r)) r).
  { cbn [decode]. rewrite H. replace (v =? 0)%N with false by lia. reflexivity. }
  f_equal. apply decode_fuel; auto.
  destruct Hdl as [H0 Hs].
  destruct (u ++ r) as [|c t] eqn:E.
  { rewrite H0 in H. injection H as <- <-. contradiction. }
  destruct (Hs (c :: t) v r) as (u' & Hu & Hne); [discriminate|auto|].
  rewrite Hu, app_length. destruct u'; [contradiction|cbn; lia].
Qed.

(** ** Standard encodings decode to what they encode *)

Lemma cont_land x : (x < 64)%N -> N.land (128 + x) 127 = x /\ N.land (128 + x) 192 = 128%N.
Proof. intro H. split; enum 64 x H. Qed.
Lemma lead2_land x : (x < 32)%N -> N.land (192 + x) 192 = 192%N /\ N.land (192 + x) 32 = 0%N /\
  N.land (N.land (192 + x) 127) 31 = x.
Proof. intro H. split; [enum 32 x H|]. split; enum 32 x H. Qed.
Lemma lead3_land x : (x < 16)%N -> N.land (224 + x) 192 = 192%N /\ N.land (224 + x) 32 = 32%N /\
  N.land (224 + x) 16 = 0%N /\ N.land (N.land (224 + x) 127) 15 = x.
Proof. intro H. split; [enum 16 x H|]. split; [enum 16 x H|]. split; enum 16 x H. Qed.
Lemma lead4_land x : (x < 8)%N -> N.land (240 + x) 192 = 192%N /\ N.land (240 + x) 32 = 32%N /\
  N.land (240 + x) 16 = 16%N /\ N.land (N.land (240 + x) 127) 7 = x.
Proof. intro H. split; [enum 8 x H|]. split; [enum 8 x H|]. split; enum 8 x H. Qed.

Lemma cont_last a x r : (x < 64)%N -> dl8 ((128 + x)%N :: r) a 0 = ((a * 64 + x)%N, r).
Proof.
  intro H. destruct (cont_land x H) as [H1 H2]. cbn [dl8]. cbv zeta. rewrite H1, H2, lor_shift by auto. reflexivity.
Qed.
Lemma cont_mid a el x r : (x < 64)%N -> dl8 ((128 + x)%N :: r) a (S el) = dl8 r (a * 64 + x)%N el.
Proof.
  intro H. destruct (cont_land x H) as [H1 H2]. cbn [dl8]. cbv zeta. rewrite H1, lor_shift by auto. reflexivity.
Qed.
Lemma lead_step n m c x r : N.land c 192 = 192%N -> (if (N.land c 32 =? 0)%N then 0 else if (N.land c 16 =? 0)%N then 1 else 2) = n ->
  N.shiftr 31 (N.of_nat n) = m -> N.land (N.land c 127) m = x -> dl8 (c :: r) 0 0 = dl8 r x n.
Proof.
  intros H1 H2 H3 H4. cbn [dl8]. cbv zeta. rewrite H1, H2, H3. change (N.shiftl 0 6) with 0%N. rewrite N.lor_0_l, H4.
  reflexivity.
Qed.

Lemma dl8_utf8 v r : (v < 2097152)%N -> d8 (utf8 v ++ r) = (v, r).
Proof.
  intro Hv. unfold d8, utf8.
  destruct (N.ltb_spec v 128) as [H1|H1].
  { cbn [app dl8]. cbv zeta. change (N.shiftl 0 6) with 0%N. rewrite N.lor_0_l.
    assert (N.land v 127 = v) as -> by enum 128 v H1.
    assert (N.land v 192 <? 192 = true)%N as ->; [|reflexivity].
    clear - H1. revert v H1. apply (forall_lt (fun v => N.land v 192 <? 192)%N 128). vm_compute; reflexivity. }
  destruct (N.ltb_spec v 2048) as [H2|H2].
  { cbn [app]. destruct (lead2_land (v / 64)) as (L1 & L2 & L3); [lia|].
    rewrite (lead_step 0 31 (192 + v / 64)%N (v / 64)%N), cont_last by (auto; rewrite ?L2, ?L3; auto; lia).
    f_equal. lia. }
  destruct (N.ltb_spec v 65536) as [H3|H3].
  { cbn [app]. destruct (lead3_land (v / 4096)) as (L1 & L2 & L3 & L4); [lia|].
    rewrite (lead_step 1 15 (224 + v / 4096)%N (v / 4096)%N), cont_mid, cont_last
      by (auto; rewrite ?L2, ?L3, ?L4; auto; lia).
    f_equal. lia. }
  cbn [app]. destruct (lead4_land (v / 262144)) as (L1 & L2 & L3 & L4); [lia|].
  rewrite (lead_step 2 7 (240 + v / 262144)%N (v / 262144)%N), !cont_mid, cont_last
    by (auto; rewrite ?L2, ?L3, ?L4; auto; lia).
  f_equal. lia.
Qed.

Lemma hi_iff c : (c < 65536)%N -> hi c = ((55296 <=? c) && (c <? 56320))%N.
Proof. intro H. unfold hi. rewrite land_fc00 by auto. lia. Qed.
Lemma lo_iff c : (c < 65536)%N -> lo c = ((56320 <=? c) && (c <? 57344))%N.
Proof. intro H. unfold lo. rewrite land_fc00 by auto. lia. Qed.

Lemma dl16_utf16 v r : scalar v -> dl16 (utf16 v ++ r) = (v, r).
Proof.
  intro Hv. unfold scalar in Hv. unfold utf16. destruct (N.ltb_spec v 65536) as [H|H].
  - cbn [app dl16]. rewrite hi_iff, lo_iff by auto.
    replace ((55296 <=? v) && (v <? 56320))%N with false by lia.
    replace ((56320 <=? v) && (v <? 57344))%N with false by lia. reflexivity.
  - cbn [app dl16]. rewrite hi_iff, lo_iff by lia.
    replace ((55296 <=? 55296 + (v - 65536) / 1024) && (55296 + (v - 65536) / 1024 <? 56320))%N with true by lia.
    replace ((56320 <=? 56320 + (v - 65536) mod 1024) && (56320 + (v - 65536) mod 1024 <? 57344))%N with true by lia.
    rewrite N.shiftl_mul_pow2. change (2 ^ 10)%N with 1024%N. f_equal. lia.
Qed.

Lemma scalar_bound v : scalar v -> (0 < v < 1114112)%N.
Proof. unfold scalar. lia. Qed.

Lemma decode8_utf8 vs : Forall scalar vs -> decode8 (flat_map utf8 vs) = vs.
Proof.
  induction vs as [|v vs IH]; intro H; [reflexivity|]. inversion_clear H as [|? ? Hv Hvs].
  pose proof (scalar_bound v Hv). cbn [flat_map]. unfold decode8.
  rewrite decode_cons with (v := v); [|apply d8_decoder|apply dl8_utf8; lia|lia]. f_equal. apply IH; auto.
Qed.
Lemma decode16_utf16 vs : Forall scalar vs -> decode16 (flat_map utf16 vs) = vs.
Proof.
  induction vs as [|v vs IH]; intro H; [reflexivity|]. inversion_clear H as [|? ? Hv Hvs].
  pose proof (scalar_bound v Hv). cbn [flat_map]. unfold decode16.
  rewrite decode_cons with (v := v); [|apply d16_decoder|apply dl16_utf16; auto|lia]. f_equal. apply IH; auto.
Qed.

(** ** What is written per character *)

Definition cut (lim : N) (l : list N) : list N := map (fun x => (x mod lim)%N) l.

Lemma cut_small lim l : Forall (fun x => x < lim)%N l -> cut lim l = l.
Proof.
  induction l as [|x l IH]; intro H; [reflexivity|]. inversion_clear H. cbn [cut map]. rewrite N.mod_small by auto.
  f_equal. apply IH; auto.
Qed.

Lemma split16_utf16 v : (v < 1114112)%N -> cut 65536 (split16 v) = utf16 v.
Proof.
  intro H. unfold split16, utf16. destruct (N.ltb_spec 65535 v) as [H1|H1].
  - replace (v <? 65536)%N with false by lia.
    rewrite N.shiftr_div_pow2. change (2 ^ 10)%N with 1024%N. change 1023%N with (N.ones 10). rewrite N.land_ones.
    change (2 ^ 10)%N with 1024%N. rewrite cut_small; [f_equal; [|f_equal]; lia|].
    constructor; [lia|]. constructor; [lia|constructor].
  - replace (v <? 65536)%N with true by lia. apply cut_small. constructor; [lia|constructor].
Qed.

Lemma lor128 x : (x < 64)%N -> N.lor x 128 = (128 + x)%N.
Proof. intro H. enum 64 x H. Qed.
Lemma lead_lor2 x : (x < 32)%N -> N.lor (N.lor (N.land x 31) 192) 128 = (192 + x)%N.
Proof. intro H. enum 32 x H. Qed.
Lemma lead_lor3 x : (x < 16)%N -> N.lor (N.lor (N.land x 31) 224) 128 = (224 + x)%N.
Proof. intro H. enum 16 x H. Qed.
Lemma lead_lor4 x : (x < 8)%N -> N.lor (N.lor (N.land x 31) 240) 128 = (240 + x)%N.
Proof. intro H. enum 8 x H. Qed.

Lemma utf8_bytes v : (v < 2097152)%N -> Forall (fun x => x < 256)%N (utf8 v).
Proof.
  intro H. unfold utf8. destruct (N.ltb_spec v 128); [|destruct (N.ltb_spec v 2048); [|destruct (N.ltb_spec v 65536)]];
    repeat (constructor; [lia|]); constructor.
Qed.

Lemma split8_utf8 v : (v < 2097152)%N -> cut 256 (split8 v) = utf8 v.
Proof.
  intro H. rewrite <- (cut_small 256 (utf8 v)) by (apply utf8_bytes; auto). f_equal.
  unfold split8, utf8. destruct (N.ltb_spec v 128) as [H1|H1]; [reflexivity|]. cbv zeta.
  change 63%N with (N.ones 6). rewrite ?N.land_ones, ?N.shiftr_div_pow2. change (2 ^ 6)%N with 64%N.
  destruct (N.ltb_spec v 2048) as [H2|H2].
  { replace (2048 <=? v)%N with false by lia. replace (65536 <=? v)%N with false by lia.
    change (2 + 0 + 0 =? 4)%N with false. change (3 <=? 2 + 0 + 0)%N with false. cbv iota. cbn [app map].
    change (4032 / 2 ^ (2 + 0 + 0 - 2) mod 256)%N with 192%N. rewrite lead_lor2, lor128 by lia. reflexivity. }
  destruct (N.ltb_spec v 65536) as [H3|H3].
  { replace (2048 <=? v)%N with true by lia. replace (65536 <=? v)%N with false by lia.
    change (2 + 1 + 0 =? 4)%N with false. change (3 <=? 2 + 1 + 0)%N with true. cbv iota. cbn [app map].
    change (4032 / 2 ^ (2 + 1 + 0 - 2) mod 256)%N with 224%N.
    replace (v / 64 / 64)%N with (v / 4096)%N by lia.
    rewrite lead_lor3, !lor128 by lia. reflexivity. }
  replace (2048 <=? v)%N with true by lia. replace (65536 <=? v)%N with true by lia.
  change (2 + 1 + 1 =? 4)%N with true. change (3 <=? 2 + 1 + 1)%N with true. cbv iota. cbn [app map].
  change (4032 / 2 ^ (2 + 1 + 1 - 2) mod 256)%N with 240%N.
  replace (v / 64 / 64 / 64)%N with (v / 262144)%N by lia.
  replace (v / 64 / 64)%N with (v / 4096)%N by lia.
  rewrite lead_lor4, !lor128 by lia. reflexivity.
Qed.

(** ** The builder *)

(** The state of a builder over the memory [buf] after [ws] was written. *)
Definition wrote (buf : list N) (max : nat) (ws : list N) : builder :=
  mkB (Some (ws ++ skipn (length ws) buf)) (length ws) max.

Lemma put_end buf ws u : length ws < length buf ->
  put (ws ++ skipn (length ws) buf) (length ws) u = Some (ws ++ u :: skipn (S (length ws)) buf).
Proof.
  intro H. unfold put. rewrite app_length, skipn_length.
  replace (Nat.ltb (length ws) (length ws + (length buf - length ws))) with true by lia.
  rewrite firstn_app_exact by auto. f_equal. f_equal. f_equal.
  rewrite skipn_app. replace (S (length ws) - length ws) with 1 by lia.
  rewrite skipn_all2 by lia. cbn [app]. rewrite <- skipn_add. f_equal. lia.
Qed.

Lemma b_put_wrote lim buf max ws v : max <= length buf -> length ws < max ->
  b_put lim (wrote buf max ws) v = Some (wrote buf max (firstn (max - 1) (ws ++ [v mod lim]%N))).
Proof.
  intros Hm Hw. unfold b_put, wrote. cbn [b_buf b_w b_max].
  destruct (Nat.ltb_spec (S (length ws)) max) as [H|H].
  - rewrite put_end by lia. rewrite firstn_all2 by (rewrite app_length; cbn; lia).
    rewrite app_length. cbn [length]. rewrite Nat.add_1_r, <- app_assoc. reflexivity.
  - replace (max - 1) with (length ws) by lia. rewrite firstn_app_exact by auto. reflexivity.
Qed.

Lemma firstn_app_firstn {A} n (a b : list A) : firstn n (firstn n a ++ b) = firstn n (a ++ b).
Proof.
  rewrite !firstn_app, firstn_firstn, Nat.min_id, firstn_length. f_equal.
  destruct (Nat.le_gt_cases n (length a)).
  - rewrite (Nat.min_l _ _ H). replace (n - length a) with 0 by lia. rewrite Nat.sub_diag. reflexivity.
  - rewrite (Nat.min_r n (length a)) by lia. reflexivity.
Qed.

Lemma b_puts_wrote lim buf max vs : forall ws, max <= length buf -> length ws < max ->
  b_puts lim (wrote buf max ws) vs = Some (wrote buf max (firstn (max - 1) (ws ++ cut lim vs))).
Proof.
  induction vs as [|v vs IH]; intros ws Hm Hw; cbn [b_puts cut map].
  - rewrite app_nil_r, firstn_all2 by lia. reflexivity.
  - rewrite b_put_wrote by auto. rewrite IH; auto.
    + rewrite firstn_app_firstn, <- app_assoc. reflexivity.
    + rewrite firstn_length. lia.
Qed.

Lemma b_puts_null lim vs : forall w max, b_puts lim (mkB None w max) vs = Some (mkB None (w + length vs) max).
Proof.
  induction vs as [|v vs IH]; intros w max; cbn [b_puts length]; [rewrite Nat.add_0_r; auto|].
  cbn [b_put b_buf b_w b_max]. rewrite IH. f_equal. f_equal. lia.
Qed.

Lemma dl_facts dl : decoder dl -> forall t v r, dl t = (v, r) -> v <> 0%N -> exists u, t = u ++ r /\ length r < length t.
Proof.
  intros [H0 Hs] t v r H Hv. destruct t as [|c t].
  - rewrite H0 in H. injection H as <- <-. contradiction.
  - destruct (Hs (c :: t) v r) as (u & Hu & Hne); [discriminate|auto|]. exists u. split; [auto|].
    rewrite Hu, app_length. destruct u; [contradiction|cbn; lia].
Qed.

(** ** The conversion loop *)

Section Conv.
Variable mem : list N.
Variable e : option nat.
Variable dl : list N -> N * list N.
Variable nextf : nat -> option (N * nat).
Variable okt : list N -> Prop.
Variable spl : N -> list N.
Variable lim : N.
Hypothesis Hdl : decoder dl.
Hypothesis Hokt : forall u r, okt (u ++ r) -> okt r.
Hypothesis Hnext : forall p t v r, okt t -> text_at mem e p t -> dl t = (v, r) ->
  nextf p = Some (v, p + length t - length r).

Definition full (t : list N) : list N := flat_map (fun c => cut lim (spl c)) (decode dl (S (length t)) t).

Lemma full_cons t v r : dl t = (v, r) -> full t = if (v =? 0)%N then [] else cut lim (spl v) ++ full r.
Proof.
  intros H. unfold full. transitivity (flat_map (fun c => cut lim (spl c)) (if (v =? 0)%N then [] else v :: decode dl (length t) r)).
  { cbn [decode]. rewrite H. reflexivity. }
  destruct (v =? 0)%N eqn:Ev; [reflexivity|]. cbn [flat_map]. f_equal. f_equal.
  destruct (dl_facts dl Hdl t v r H) as (u & Hu & Hl); [lia|]. apply decode_fuel; auto.
Qed.

Lemma conv_loop_wrote buf max : max <= length buf -> 1 <= max ->
  forall fuel t p ws, okt t -> text_at mem e p t -> length t < fuel -> length ws < max ->
  exists p', conv_loop nextf spl lim fuel (wrote buf max ws) p =
    Some (wrote buf max (firstn (max - 1) (ws ++ full t)), p') /\ p <= p' <= p + length t.
Proof.
  intros Hm H1. induction fuel as [|k IH]; intros t p ws Ho Ht Hf Hw; [lia|].
  cbn [conv_loop]. unfold b_truncated at 1. cbn [wrote b_buf b_w b_max].
  destruct (Nat.leb_spec max (S (length ws))) as [Hc|Hc].
  { exists p. replace (max - 1) with (length ws) by lia. rewrite firstn_app_exact by auto. split; [reflexivity|lia]. }
  destruct (dl t) as [v r] eqn:E. rewrite (Hnext p t v r Ho Ht E).
  rewrite (full_cons t v r E). destruct (v =? 0)%N eqn:Ev.
  - rewrite app_nil_r, firstn_all2 by lia. exists (p + length t - length r). split; [reflexivity|].
    destruct t as [|c t].
    + destruct Hdl as [H0 _]. rewrite H0 in E. injection E as <- <-. cbn; lia.
    + destruct Hdl as [_ Hs]. destruct (Hs (c :: t) v r) as (u & Hu & _); [discriminate|auto|].
      rewrite Hu, app_length. lia.
  - destruct (dl_facts dl Hdl t v r E) as (u & Hu & Hl); [lia|].
    fold (wrote buf max ws). rewrite b_puts_wrote by auto.
    assert (text_at mem e (p + length t - length r) r) as Ht'.
    { rewrite Hu in Ht |- *. rewrite app_length.
      replace (p + (length u + length r) - length r) with (p + length u) by lia. apply text_at_suffix; auto. }
    destruct (IH r (p + length t - length r) (firstn (max - 1) (ws ++ cut lim (spl v)))) as (p' & Hp & Hle).
    + rewrite Hu in Ho. eauto.
    + exact Ht'.
    + lia.
    + rewrite firstn_length. lia.
    + exists p'. rewrite Hp. rewrite firstn_app_firstn, <- app_assoc. split; [reflexivity|lia].
Qed.

Lemma cut_length l : length (cut lim l) = length l.
Proof. apply map_length. Qed.

Lemma conv_loop_null max : forall fuel t p w, okt t -> text_at mem e p t -> length t < fuel ->
  exists p', conv_loop nextf spl lim fuel (mkB None w max) p = Some (mkB None (w + length (full t)) max, p') /\
    p <= p' <= p + length t.
Proof.
  induction fuel as [|k IH]; intros t p w Ho Ht Hf; [lia|].
  cbn [conv_loop b_truncated b_buf].
  destruct (dl t) as [v r] eqn:E. rewrite (Hnext p t v r Ho Ht E).
  rewrite (full_cons t v r E). destruct (v =? 0)%N eqn:Ev.
  - cbn [length]. rewrite Nat.add_0_r. exists (p + length t - length r). split; [reflexivity|].
    destruct t as [|c t].
    + destruct Hdl as [H0 _]. rewrite H0 in E. injection E as <- <-. cbn; lia.
    + destruct Hdl as [_ Hs]. destruct (Hs (c :: t) v r) as (u & Hu & _); [discriminate|auto|].
      rewrite Hu, app_length. lia.
  - destruct (dl_facts dl Hdl t v r E) as (u & Hu & Hl); [lia|].
    rewrite b_puts_null.
    assert (text_at mem e (p + length t - length r) r) as Ht'.
    { rewrite Hu in Ht |- *. rewrite app_length.
      replace (p + (length u + length r) - length r) with (p + length u) by lia. apply text_at_suffix; auto. }
    destruct (IH r (p + length t - length r) (w + length (spl v))) as (p' & Hp & Hle).
    + rewrite Hu in Ho. eauto.
    + exact Ht'.
    + lia.
    + exists p'. rewrite Hp, app_length, cut_length, Nat.add_assoc. split; [reflexivity|lia].
Qed.

Lemma convert_target buf max t p : max <= length buf -> okt t -> text_at mem e p t ->
  exists p', convert mem nextf spl lim (Some buf) max p =
    Some (Nat.min (length (full t)) (max - 1), Some (target buf max (full t)), p') /\ p <= p' <= p + length t.
Proof.
  intros Hm Ho Ht. unfold convert. pose proof (text_at_len _ _ _ _ Ht).
  change (mkB (Some buf) 0 max) with (wrote buf max []).
  destruct max as [|m].
  { cbn [conv_loop]. unfold b_truncated at 1. cbn. exists p. rewrite Nat.min_0_r. split; [reflexivity|lia]. }
  destruct (conv_loop_wrote buf (S m) Hm (le_n_S _ _ (Nat.le_0_l m)) (S (length mem)) t p []) as (p' & Hp & Hle);
    auto; [lia|cbn; lia|].
  rewrite Hp. exists p'. split; [|auto]. unfold b_done, wrote. cbn [b_buf b_w b_max].
  replace (S m - 1) with m by lia. cbn [app].
  replace (Nat.leb 1 (S m)) with true by lia.
  rewrite put_end by (rewrite firstn_length; lia).
  rewrite firstn_length, (Nat.min_comm m). unfold target. rewrite firstn_length, (Nat.min_comm m). reflexivity.
Qed.

Lemma convert_null max t p : okt t -> text_at mem e p t ->
  exists p', convert mem nextf spl lim None max p = Some (length (full t), None, p') /\ p <= p' <= p + length t.
Proof.
  intros Ho Ht. unfold convert. pose proof (text_at_len _ _ _ _ Ht).
  destruct (conv_loop_null max (S (length mem)) t p 0) as (p' & Hp & Hle); auto; [lia|].
  rewrite Hp. exists p'. split; [reflexivity|auto].
Qed.

End Conv.

(** ** Ranges of decoded values *)

Lemma dl8_bound t : forall ax el v r, el <= 2 ->
  (ax < 2 ^ match el with 0%nat => 15 | 1%nat => 9 | _ => 3 end)%N -> dl8 t ax el = (v, r) -> (v < 2097152)%N.
Proof.
  change 2097152%N with (2 ^ 21)%N.
  induction t as [|c t IH]; intros ax el v r Hel Hax H; cbn [dl8] in H; cbv zeta in H.
  { injection H as <- <-. reflexivity. }
  assert (Hor : forall n, (7 <= n)%N -> (ax < 2 ^ (n - 6))%N -> (N.lor (N.shiftl ax 6) (N.land c 127) < 2 ^ n)%N).
  { intros n Hn Ha. apply lor_lt.
    - rewrite N.shiftl_mul_pow2. replace n with (n - 6 + 6)%N at 1 by lia. rewrite N.pow_add_r.
      apply N.mul_lt_mono_pos_r; [reflexivity|auto].
    - change 127%N with (N.ones 7). eapply N.lt_le_trans; [apply land_lt|]. apply N.pow_le_mono_r; [discriminate|auto]. }
  destruct el as [|[|[|el]]]; [| | |lia].
  - destruct (N.land c 192 <? 192)%N.
    + injection H as <- <-. apply Hor; [lia|exact Hax].
    + set (n := if (N.land c 32 =? 0)%N then 0 else if (N.land c 16 =? 0)%N then 1 else 2) in H.
      apply (IH _ n v r) in H; auto; [subst n; destruct (N.land c 32 =? 0)%N; [lia|]; destruct (N.land c 16 =? 0)%N; lia|].
      subst n. destruct (N.land c 32 =? 0)%N; [|destruct (N.land c 16 =? 0)%N].
      * change (N.shiftr 31 (N.of_nat 0)) with (N.ones 5). eapply N.lt_le_trans; [apply land_lt|]. apply N.pow_le_mono_r; lia.
      * change (N.shiftr 31 (N.of_nat 1)) with (N.ones 4). eapply N.lt_le_trans; [apply land_lt|]. apply N.pow_le_mono_r; lia.
      * change (N.shiftr 31 (N.of_nat 2)) with (N.ones 3). apply land_lt.
  - apply (IH _ 0 v r) in H; auto. apply Hor; [lia|exact Hax].
  - apply (IH _ 1 v r) in H; auto. apply Hor; [lia|exact Hax].
Qed.

Lemma dl16_scalar t v r : Forall (fun u => u < 65536)%N t -> Forall (fun u => u <> 0)%N t -> t <> [] ->
  dl16 t = (v, r) -> scalar v.
Proof.
  intros Hu Hz Hne H. destruct t as [|c t]; [contradiction|]. unfold scalar.
  pose proof (Forall_inv Hu) as Hc. pose proof (Forall_inv Hz) as Hc0. cbn beta in *.
  cbn [dl16] in H. destruct (hi c) eqn:Eh.
  - destruct t as [|d t]; [injection H as <- <-; lia|].
    pose proof (Forall_inv (Forall_inv_tail Hu)) as Hd. cbn beta in Hd.
    destruct (lo d) eqn:El; injection H as <- <-; [|lia].
    rewrite hi_iff in Eh by auto. rewrite lo_iff in El by auto.
    rewrite N.shiftl_mul_pow2. change (2 ^ 10)%N with 1024%N. lia.
  - rewrite hi_iff in Eh by auto.
    destruct (lo c) eqn:El; injection H as <- <-; [lia|]. rewrite lo_iff in El by auto. lia.
Qed.

Lemma decode16_scalars k : forall t, Forall (fun u => u < 65536)%N t -> Forall (fun u => u <> 0)%N t ->
  Forall scalar (decode dl16 k t).
Proof.
  induction k as [|k IH]; intros t Hu Hz; cbn [decode]; [constructor|].
  destruct (dl16 t) as [v r] eqn:E. destruct (v =? 0)%N eqn:Ev; constructor.
  - eapply dl16_scalar; eauto. intros ->. cbn in E. injection E as <- <-. discriminate.
  - destruct (dl_facts dl16 d16_decoder t v r E) as (u & -> & _); [lia|]. apply Forall_app in Hu, Hz. apply IH; tauto.
Qed.
