(** Proofs for SmallModel. *)
From Coq Require Import QArith Qround Qabs Lqa.
From Verif Require Import Base SmallModel.
Open Scope nat_scope.

(** ** wakeup characters *)
Fixpoint until0 (l : list Z) : list Z :=
  match l with [] => [] | c :: r => if (c =? 0)%Z then [] else c :: until0 r end.

Lemma until0_prefix l : exists r, l = until0 l ++ r.
Proof. induction l as [|c l [r IH]]; simpl; [exists []; reflexivity|]. destruct (c =? 0)%Z; [exists (c :: l); reflexivity|exists r; simpl; congruence]. Qed.

Lemma wput_at (a : list Z) x b c i : i = length a -> wput (a ++ x :: b) i c = Some (a ++ c :: b).
Proof.
  intros ->. unfold wput. rewrite app_length. cbn [length]. destruct (Nat.ltb_spec (length a) (length a + S (length b))); [|lia].
  f_equal. rewrite firstn_app_exact by reflexivity. f_equal. f_equal.
  replace (S (length a)) with (length (a ++ [x])) by (rewrite app_length; simpl; lia).
  change (a ++ x :: b) with (a ++ [x] ++ b). rewrite app_assoc. apply skipn_app_exact. reflexivity.
Qed.

Lemma filter_le {A} (f : A -> bool) l : length (filter f l) <= length l.
Proof. induction l as [|x l IH]; simpl; [lia|]. destruct (f x); simpl; lia. Qed.

(* state: out (kept so far), gap (dead cells), rest *)
Lemma wloop_eq mask max : forall out gap rest, max <= length rest ->
  let p := until0 (firstn max rest) in
  let k := filter (wkeep mask) p in
  exists gap', length gap' = length gap + (length p - length k) /\
    (length p = length k -> gap = [] -> gap' = []) /\
    wloop mask max (length out + length gap) (length out) (out ++ gap ++ rest)
    = Some (length out + length gap + length p, length out + length k, (out ++ k) ++ gap' ++ skipn (length p) rest).
Proof.
  induction max as [|max IH]; intros out gap rest Hl p k; subst p k.
  - simpl. exists gap. split; [lia|]. split; [auto|]. rewrite !Nat.add_0_r, app_nil_r. reflexivity.
  - destruct rest as [|c rest]; [simpl in Hl; lia|]. cbn [firstn until0 wloop].
    rewrite (nth_error_app2 out) by lia. replace (length out + length gap - length out) with (length gap) by lia.
    rewrite nth_error_app2 by lia. rewrite Nat.sub_diag. cbn [nth_error].
    destruct (c =? 0)%Z eqn:Ec.
    + cbn [filter length skipn]. exists gap. split; [lia|]. split; [auto|]. rewrite !Nat.add_0_r, app_nil_r. reflexivity.
    + assert (Hl' : max <= length rest) by (simpl in Hl; lia). cbn [filter length skipn].
      pose proof (filter_le (wkeep mask) (until0 (firstn max rest))) as Hf.
      destruct (wkeep mask c) eqn:Ek.
      * destruct gap as [|g gap].
        -- cbn [length app]. rewrite Nat.add_0_r, Nat.eqb_refl.
           destruct (IH (out ++ [c]) [] rest Hl') as (gap' & H1 & H2 & H3). exists gap'. split; [exact H1|]. split; [auto|].
           rewrite app_length in H3. cbn [length app] in H3. rewrite Nat.add_0_r, Nat.add_1_r in H3. rewrite <- app_assoc in H3. cbn [app] in H3.
           rewrite H3. f_equal. f_equal; [f_equal; lia|]. rewrite <- !app_assoc. reflexivity.
        -- cbn [length]. destruct (Nat.eqb_spec (length out) (length out + S (length gap))); [lia|].
           cbn [app]. rewrite wput_at by reflexivity.
           destruct (IH (out ++ [c]) (gap ++ [c]) rest Hl') as (gap' & H1 & H2 & H3).
           rewrite !app_length in *. cbn [length app] in *. exists gap'. split; [lia|]. split; [intros _ K; discriminate|].
           replace (S (length out + S (length gap))) with (length out + 1 + (length gap + 1)) by lia.
           replace (S (length out)) with (length out + 1) by lia.
           rewrite <- !app_assoc in H3. cbn [app] in H3. rewrite H3. f_equal. f_equal; [f_equal; lia|]. rewrite <- !app_assoc. reflexivity.
      * destruct (IH out (gap ++ [c]) rest Hl') as (gap' & H1 & H2 & H3). rewrite !app_length in *. cbn [length] in *. exists gap'.
        split; [lia|]. split; [intros; lia|]. rewrite <- !app_assoc in H3. cbn [app] in H3.
        replace (S (length out + length gap)) with (length out + (length gap + 1)) by lia. rewrite H3. f_equal. f_equal; [f_equal; lia|rewrite <- !app_assoc; reflexivity].
Qed.

(** ** input parameters *)
Lemma to_short_id z : (-32768 <= z < 32768)%Z -> to_short z = z.
Proof. unfold to_short. lia. Qed.

(** ** scroll car *)
Lemma round1_eq p : round1 p = (2 * (p / 2))%Z.
Proof.
  unfold round1. replace (-2)%Z with (Z.lnot 1) by reflexivity.
  rewrite <- Z.ldiff_land. change 1%Z with (Z.ones 1). rewrite Z.ldiff_ones_r by lia.
  rewrite Z.shiftr_div_pow2, Z.shiftl_mul_pow2 by lia. change (2 ^ 1)%Z with 2%Z. lia.
Qed.

Lemma i32_some z : (-2147483648 <= z < 2147483648)%Z -> i32 z = Some z.
Proof. intro H. unfold i32. replace ((-2147483648 <=? z)%Z && (z <? 2147483648)%Z) with true by lia. reflexivity. Qed.

Lemma wkeep_spec mask c : wkeep mask c = true <-> ~ ((0 <= c < 32)%Z /\ Z.testbit mask c = true).
Proof.
  unfold wkeep. destruct (Z.ltb_spec c 0); [simpl; split; [intros _ [K _]; lia|reflexivity]|].
  destruct (Z.leb_spec 32 c); [simpl; split; [intros _ [K _]; lia|reflexivity]|]. cbn [orb].
  assert (E : Z.land mask (Z.shiftl 1 c) = if Z.testbit mask c then Z.shiftl 1 c else 0%Z).
  { apply Z.bits_inj'. intros n Hn. rewrite Z.land_spec, Z.shiftl_spec by lia. change 1%Z with (Z.ones 1).
    destruct (Z.eq_dec n c) as [->|N].
    - rewrite Z.sub_diag. destruct (Z.testbit mask c); [rewrite Z.shiftl_spec by lia; rewrite Z.sub_diag; reflexivity|rewrite Z.testbit_0_l; reflexivity].
    - replace (Z.testbit (Z.ones 1) (n - c)) with false by (symmetry; destruct (Z.lt_ge_cases (n - c) 0); [apply Z.testbit_neg_r; lia|apply Z.ones_spec_high; lia]).
      rewrite andb_false_r. destruct (Z.testbit mask c); [|rewrite Z.testbit_0_l; reflexivity]. rewrite Z.shiftl_spec by lia.
      symmetry. destruct (Z.lt_ge_cases (n - c) 0); [apply Z.testbit_neg_r; lia|apply Z.ones_spec_high; lia]. }
  rewrite E. destruct (Z.testbit mask c) eqn:Eb.
  - replace (Z.shiftl 1 c =? 0)%Z with false.
    + split; [discriminate|]. intro K. exfalso. apply K. split; [lia|reflexivity].
    + symmetry. apply Z.eqb_neq. rewrite Z.shiftl_mul_pow2 by lia. pose proof (Z.pow_pos_nonneg 2 c). lia.
  - cbn. split; [intros _ [_ K]; discriminate|reflexivity].
Qed.

(** floor *)
Lemma quot_floor q : (0 <= q)%Q -> Z.quot (Qnum q) (Zpos (Qden q)) = Qfloor q.
Proof.
  intro H. destruct q as [n d]. cbn [Qnum Qden Qfloor]. unfold Qle in H. cbn in H. apply Z.quot_div_nonneg; lia.
Qed.
