(** C37 (key parameters), C47 (scroll car), C48 (wakeup characters), C55 (alias cache). *)
From Coq Require Import QArith Qround Qabs Lqa.
From Verif Require Import Base SmallModel SmallProofs.
Open Scope nat_scope.

(** ** C48 *)
(** A character goes exactly when it is a control character whose bit is set in the mask. *)
Definition selected (mask c : Z) : bool := ((0 <=? c) && (c <? 32))%Z && Z.testbit mask c.
(** The text in a buffer of [max] characters: up to the first NUL, or all of it. *)
Definition text_of (max : nat) (buf : list Z) (t : list Z) : Prop :=
  Forall (fun c => c <> 0%Z) t /\ exists r, firstn max buf = t ++ r /\ (r = [] \/ exists r', r = 0%Z :: r').

Lemma until0_text l t r : Forall (fun c => c <> 0%Z) t -> (r = [] \/ exists r', r = 0%Z :: r') -> l = t ++ r -> until0 l = t.
Proof.
  intros Ht Hr ->. induction t as [|c t IH]; cbn [app until0].
  - destruct Hr as [->|[r' ->]]; reflexivity.
  - inversion_clear Ht as [|? ? Hc Ht']. destruct (Z.eqb_spec c 0); [contradiction|]. rewrite (IH Ht'). reflexivity.
Qed.

Lemma filter_keep mask t : filter (wkeep mask) t = filter (fun c => negb (selected mask c)) t.
Proof.
  apply filter_ext. intro c. apply eq_true_iff_eq. rewrite wkeep_spec. unfold selected.
  destruct (Z.testbit mask c), (Z.leb_spec 0 c), (Z.ltb_spec c 32); cbn; split; intro K; try reflexivity; try discriminate; try (intros [? ?]; lia); try (exfalso; apply K; split; [lia|reflexivity]);
    try (intros [_ ?]; discriminate).
Qed.

(** The text left is the old one without the selected characters, in order; when anything was removed it is ended by a
    NUL; when nothing was removed, the buffer is as it was; nothing past the old text is written. *)
Theorem c48_strip : forall mask max buf t, max <= length buf -> text_of max buf t ->
  let t' := filter (fun c => negb (selected mask c)) t in
  exists buf', strip_wakeup mask max buf = Some buf' /\ length buf' = length buf /\
    (t' = t -> buf' = buf) /\
    (t' <> t -> exists rest, buf' = t' ++ 0%Z :: rest) /\
    skipn (length t) buf' = skipn (length t) buf.
Proof.
  intros mask max buf t Hm (Ht & r & Hr & Hr') t'. subst t'.
  destruct max as [|max].
  { cbn [firstn] in Hr. symmetry in Hr. apply app_eq_nil in Hr as [-> ->]. exists buf. cbn. split; [reflexivity|]. split; [reflexivity|]. split; [reflexivity|]. split; [intro K; contradiction|reflexivity]. }
  unfold strip_wakeup. destruct (wloop_eq mask (S max) [] [] buf Hm) as (gap & Hg & Hg0 & E). cbn [app length] in E, Hg.
  rewrite (until0_text _ t r Ht Hr' Hr) in *. rewrite filter_keep in *. rewrite !Nat.add_0_l in E. rewrite E.
  assert (Hb : exists b2, buf = t ++ b2).
  { exists (r ++ skipn (S max) buf). rewrite app_assoc, <- Hr, firstn_skipn. reflexivity. }
  destruct Hb as [b2 ->]. rewrite !(skipn_app_exact t b2) in * by reflexivity.
  set (k := filter (fun c => negb (selected mask c)) t) in *.
  assert (Hkl : length k <= length t) by apply filter_le.
  destruct (Nat.eqb_spec (length k) (length t)) as [El|Nl].
  - rewrite Hg0 by (auto; lia). cbn [app]. assert (Ek : k = t).
    { clear - El. unfold k in *. induction t as [|c t IH]; [reflexivity|]. cbn [filter] in *. destruct (negb (selected mask c)); cbn [length] in *; [f_equal; apply IH; lia|].
      pose proof (filter_le (fun c => negb (selected mask c)) t). lia. }
    rewrite Ek. exists (t ++ b2). split; [reflexivity|]. split; [reflexivity|]. split; [reflexivity|]. split; [intro K; contradiction|reflexivity || (rewrite skipn_app_exact by reflexivity; reflexivity)].
  - destruct gap as [|g gap]; [cbn [length] in Hg; lia|]. change ((g :: gap) ++ b2) with (g :: (gap ++ b2)). rewrite wput_at by reflexivity.
    exists (k ++ 0%Z :: gap ++ b2). cbn [length] in Hg. split; [reflexivity|]. split; [rewrite !app_length; cbn [length]; rewrite app_length; lia|].
    split; [intro K; rewrite K in Nl; contradiction|]. split; [intros _; eexists; reflexivity|].
    replace (k ++ 0%Z :: gap ++ b2) with ((k ++ 0%Z :: gap) ++ b2) by (rewrite <- app_assoc; reflexivity). rewrite skipn_app_exact; [reflexivity|]. rewrite app_length. cbn [length]. lia.
Qed.
Print Assumptions c48_strip.
Example c48_example : strip_wakeup 512 5 [97; 9; 98; 10; 9; 0; 55]%Z = Some [97; 98; 10; 0; 9; 0; 55]%Z.
Proof. vm_compute. reflexivity. Qed.

(** ** C37 *)
(** A sequence of parameters (value, number of digits). *)
Definition param_ok (a : Z * Z) : Prop := (0 <= fst a < 65536 /\ 0 <= snd a < 256)%Z.
Fixpoint adds (p : iparams) (l : list (Z * Z)) : option (list bool * iparams) :=
  match l with
  | [] => Some ([], p)
  | (v, n) :: r => match ip_add p v n with
                   | None => None
                   | Some (b, p1) => match adds p1 r with None => None | Some (bs, p2) => Some (b :: bs, p2) end
                   end
  end.
Definition total (l : list (Z * Z)) : Z := fold_right (fun a s => snd a - 1 + s)%Z 0%Z l.

Lemma total_app a b : total (a ++ b) = (total a + total b)%Z.
Proof. unfold total. induction a as [|x a IH]; cbn [app fold_right]; lia. Qed.
Lemma total_bound l : Forall param_ok l -> length l <= 4 -> (-4 <= total l <= 1016)%Z.
Proof.
  intros H Hl. do 5 (destruct l as [|? l]; [unfold total; cbn [fold_right]; repeat match goal with K : Forall _ (_ :: _) |- _ => inversion_clear K end; unfold param_ok in *; lia|]).
  cbn in Hl; lia.
Qed.

Definition holds (p : iparams) (l : list (Z * Z)) : Prop :=
  exists junk, ip_params p = map fst l ++ junk /\ length (ip_params p) = 4 /\ ip_num p = length l /\ ip_len p = total l.

Lemma adds_holds : forall l p l0, Forall param_ok (l0 ++ l) -> holds p l0 -> length l0 <= 4 ->
  exists bs p', adds p l = Some (bs, p') /\ holds p' (firstn 4 (l0 ++ l)) /\
    bs = map (fun i => i <? 4) (seq (length l0) (length l)).
Proof.
  induction l as [|[v n] l IH]; intros p l0 Hok (junk & H1 & H2 & H3 & H4) Hl.
  - rewrite app_nil_r. rewrite firstn_all2 by lia. exists [], p. split; [reflexivity|]. split; [exists junk; auto|reflexivity].
  - cbn [adds]. unfold ip_add. rewrite H3. destruct (Nat.leb_spec 4 (length l0)) as [Hf|Hf].
    + assert (E4 : length l0 = 4) by lia.
      destruct (IH p l0) as (bs & p' & E & Hh & Eb).
      * apply Forall_app in Hok as [K1 K2]. apply Forall_app. split; [exact K1|]. exact (Forall_inv_tail K2).
      * exists junk; auto.
      * lia.
      * rewrite E. exists (false :: bs), p'. split; [reflexivity|]. rewrite firstn_app in Hh |- *. rewrite E4 in *. cbn [Nat.sub firstn] in *.
        split; [exact Hh|]. cbn [length seq map]. f_equal. subst bs.
        assert (Hs : forall k, map (fun i : nat => i <? 4) (seq 4 k) = map (fun i => i <? 4) (seq 5 k)); [|rewrite <- Hs; reflexivity].
        clear. intro k. rewrite <- (seq_shift k 4), map_map. apply map_ext_in. intros i Hi. apply in_seq in Hi. destruct (Nat.ltb_spec i 4), (Nat.ltb_spec (S i) 4); lia.
    + destruct junk as [|j junk]; [rewrite H1, app_nil_r, map_length in H2; lia|].
      rewrite H1. rewrite wput_at by (rewrite map_length; reflexivity).
      assert (Hpv : param_ok (v, n)) by (apply Forall_app in Hok as [_ K]; exact (Forall_inv K)).
      assert (Hb : (-4 <= total l0 <= 1016)%Z) by (apply total_bound; [apply Forall_app in Hok as [K _]; exact K|lia]).
      destruct Hpv as [_ Hn]. cbn [snd] in Hn.
      rewrite H4. rewrite (to_short_id (total l0 + n)) by lia. rewrite to_short_id by lia.
      destruct (IH (mkIP (map fst l0 ++ v :: junk) (S (length l0)) (total l0 + n - 1)) (l0 ++ [(v, n)])) as (bs & p' & E & Hh & Eb).
      * rewrite <- app_assoc. exact Hok.
      * exists junk. cbn [ip_params ip_num ip_len]. rewrite map_app, <- app_assoc. split; [reflexivity|]. rewrite H1 in H2. rewrite app_length in *. cbn [length] in *.
        split; [exact H2|]. split; [rewrite app_length; cbn [length]; lia|]. rewrite total_app. unfold total. cbn [fold_right snd]. lia.
      * rewrite app_length. cbn [length]. lia.
      * rewrite E. exists (true :: bs), p'. split; [reflexivity|]. rewrite <- app_assoc in Hh. split; [exact Hh|].
        cbn [length seq map]. rewrite app_length, Nat.add_1_r in Eb. subst bs. destruct (Nat.ltb_spec (length l0) 4); [reflexivity|lia].
Qed.

(** After clearing and adding any parameters: the first four (or fewer) are there, in order, asking for another gives
    "no" and 0, later ones were refused, and the length is that of the digits kept, less one key each. *)
Theorem c37_params : forall p l, length (ip_params p) = 4 -> Forall param_ok l ->
  exists bs p', adds (ip_clear p) l = Some (bs, p') /\
    bs = map (fun i => i <? 4) (seq 0 (length l)) /\
    ip_num p' = Nat.min 4 (length l) /\
    (forall i, ip_get p' i = match nth_error (firstn 4 l) i with Some (v, _) => Some (true, v) | None => Some (false, 0%Z) end) /\
    ip_len p' = total (firstn 4 l).
Proof.
  intros p l Hp Hok. destruct (adds_holds l (ip_clear p) [] Hok) as (bs & p' & E & (junk & H1 & H2 & H3 & H4) & Eb).
  - exists (ip_params p). cbn. auto.
  - cbn; lia.
  - cbn [app length] in *. exists bs, p'. split; [exact E|]. split; [exact Eb|]. split; [rewrite H3, firstn_length; reflexivity|]. split; [|exact H4].
    intro i. unfold ip_get. rewrite H3. destruct (Nat.leb_spec (length (firstn 4 l)) i) as [Hi|Hi].
    + replace (nth_error (firstn 4 l) i) with (@None (Z * Z)); [reflexivity|]. symmetry. apply nth_error_None. exact Hi.
    + rewrite H1, nth_error_app1 by (rewrite map_length; exact Hi). rewrite nth_error_map.
      destruct (nth_error (firstn 4 l) i) as [[v n]|] eqn:En; [reflexivity|]. apply nth_error_None in En. lia.
Qed.
Print Assumptions c37_params.
Example c37_example : match adds (ip_init [7; 7; 7; 7]%Z) [(12, 2); (5, 1)]%Z with
  | Some (_, p) => (ip_get p 0, ip_get p 1, ip_get p 2, ip_len p) = (Some (true, 12), Some (true, 5), Some (false, 0), 1)%Z | None => False end.
Proof. vm_compute. reflexivity. Qed.
(** With more than four parameters the length is not that of all the digits. *)
Theorem c37_length_of_all_refuted : exists l, Forall param_ok l /\
  match adds (ip_init [0; 0; 0; 0]%Z) l with Some (_, p) => ip_len p <> total l | None => True end.
Proof. exists (repeat (10, 2)%Z 5). split; [repeat constructor; cbn; lia|]. vm_compute. discriminate. Qed.
Print Assumptions c37_length_of_all_refuted.

(** ** C47 *)
(** The size: nothing when there is nothing to scroll, otherwise at least one cell (two half cells) and never more than
    the bar. *)
Theorem c47_size : forall rows total, (0 < rows < total)%Z -> (rows < 30000)%Z -> (total < 600000000)%Z ->
  exists s, car_size true rows total = Some s /\ (2 <= s <= 2 * rows)%Z.
Proof.
  intros rows tot H H1 H2. unfold car_size. replace ((negb true || (rows <=? 0) || (tot <=? rows))%Z) with false by lia.
  assert (0 <= rows * rows <= 900000000)%Z by nia.
  rewrite i32_some by lia. replace (2 * rows * rows)%Z with (2 * (rows * rows))%Z by lia. set (rr := (rows * rows)%Z) in *.
  rewrite i32_some by lia. rewrite i32_some by (split; [|]; lia || (apply Z.lt_le_trans with (1800000000 + 300000000)%Z; lia)).
  eexists. split; [reflexivity|]. lia.
Qed.
Print Assumptions c47_size.
Theorem c47_size_none : forall e rows total, (rows <= 0 \/ total <= rows)%Z -> car_size e rows total = Some 0%Z.
Proof. intros e rows tot H. unfold car_size. replace ((negb e || (rows <=? 0) || (tot <=? rows))%Z) with true by (destruct e; cbn; lia). reflexivity. Qed.
Print Assumptions c47_size_none.
(** Very tall bars overflow int32. *)
Theorem c47_size_huge_refuted : exists rows total, (0 < rows < total)%Z /\ (total < 2147483648)%Z /\ car_size true rows total = None.
Proof. exists 40000%Z, 50000%Z. split; [lia|]. split; [lia|]. vm_compute. reflexivity. Qed.
Print Assumptions c47_size_huge_refuted.

Section Offset.
(** The rounding to double: keeps order, does not change zero, and errs by at most one part in 2^50 (binary64 errs by
    2^-53 in the range the code uses). *)
Variable rnd : Q -> Q.
Hypothesis rnd_mono : forall x y, (0 <= x)%Q -> (x <= y)%Q -> (rnd x <= rnd y)%Q.
Hypothesis rnd_zero : forall x, (x == 0)%Q -> (rnd x == 0)%Q.
Hypothesis rnd_err : forall x, (0 <= x)%Q -> (Qabs (rnd x - x) <= x * (1 # 1125899906842624))%Q.

Let u := (1 # 1125899906842624)%Q.

Lemma rnd_bounds x : (0 <= x)%Q -> (x * (1 - u) <= rnd x <= x * (1 + u))%Q.
Proof. intro H. pose proof (rnd_err x H) as K. apply Qabs_Qle_condition in K. unfold u in *. lra. Qed.

Lemma per_facts d c : (0 < d < 2147483648)%Z -> (0 < c < 2147483648)%Z ->
  let per := rnd (inject_Z d / inject_Z c) in (0 < per)%Q /\ (per * inject_Z c <= inject_Z d * (1 + u))%Q.
Proof.
  intros Hd Hc per. assert (Hcq : (0 < inject_Z c)%Q) by (unfold Qlt; cbn; lia). assert (Hdq : (0 < inject_Z d)%Q) by (unfold Qlt; cbn; lia).
  assert (Hx : (0 < inject_Z d / inject_Z c)%Q) by (apply Qlt_shift_div_l; [exact Hcq|rewrite Qmult_0_l; exact Hdq]).
  destruct (rnd_bounds (inject_Z d / inject_Z c)) as [L U]; [apply Qlt_le_weak; exact Hx|]. fold per in L, U.
  split.
  - eapply Qlt_le_trans; [|exact L]. assert (0 < 1 - u)%Q by (unfold u; lra).
    setoid_replace 0%Q with (0 * (1 - u))%Q by ring. apply Qmult_lt_compat_r; assumption.
  - assert (E : (inject_Z d * (1 + u) == inject_Z d / inject_Z c * (1 + u) * inject_Z c)%Q) by (field; intro K; rewrite K in Hcq; discriminate).
    rewrite E. apply Qmult_le_compat_r; [exact U|apply Qlt_le_weak; exact Hcq].
Qed.

Lemma quotient_bounds d c top : (0 < d < 2147483648)%Z -> (0 < c < 1073741824)%Z -> (0 <= top <= d)%Z ->
  let q := rnd (inject_Z top / rnd (inject_Z d / inject_Z c)) in (0 <= q)%Q /\ (q <= inject_Z c + 1)%Q.
Proof.
  intros Hd Hc Ht q. destruct (per_facts d c) as [Hp _]; [lia|lia|]. set (per := rnd (inject_Z d / inject_Z c)) in *.
  assert (Hdq : (0 < inject_Z d)%Q) by (unfold Qlt; cbn; lia). assert (Hcq : (0 < inject_Z c)%Q) by (unfold Qlt; cbn; lia).
  assert (Hcm : (inject_Z c <= 1073741824)%Q) by (unfold Qle; cbn; lia).
  assert (Htq : (0 <= inject_Z top)%Q) by (unfold Qle; cbn; lia). assert (Htd : (inject_Z top <= inject_Z d)%Q) by (unfold Qle; cbn; lia).
  assert (Hy : (0 <= inject_Z top / per)%Q) by (apply Qle_shift_div_l; [exact Hp|rewrite Qmult_0_l; exact Htq]).
  destruct (rnd_bounds _ Hy) as [L U]. fold q in L, U. split.
  - eapply Qle_trans; [|exact L]. apply Qmult_le_0_compat; [exact Hy|unfold u; lra].
  - (* top/per <= c / (1-u) *)
    assert (Hx : (0 <= inject_Z d / inject_Z c)%Q) by (apply Qle_shift_div_l; [exact Hcq|rewrite Qmult_0_l; lra]).
    destruct (rnd_bounds _ Hx) as [L2 _]. fold per in L2.
    assert (Hpc : (inject_Z d * (1 - u) <= per * inject_Z c)%Q).
    { assert (E : (inject_Z d * (1 - u) == inject_Z d / inject_Z c * (1 - u) * inject_Z c)%Q) by (field; intro K; rewrite K in Hcq; discriminate).
      rewrite E. apply Qmult_le_compat_r; [exact L2|lra]. }
    assert (Hq : (inject_Z top / per * (1 + u) <= inject_Z c + 1)%Q).
    { assert (E : (inject_Z top / per * (1 + u) == (inject_Z top * (1 + u)) / per)%Q) by (field; intro K; rewrite K in Hp; discriminate).
      rewrite E. apply Qle_shift_div_r; [exact Hp|].
      (* top(1+u) <= d(1+u) <= (c+1) per  since per*c >= d(1-u), per >= d(1-u)/2^30 *)
      assert (H1 : (inject_Z top * (1 + u) <= inject_Z d * (1 + u))%Q) by (apply Qmult_le_compat_r; [exact Htd|unfold u; lra]).
      assert (H2 : (per * inject_Z c <= per * 1073741824)%Q) by (rewrite !(Qmult_comm per); apply Qmult_le_compat_r; [exact Hcm|lra]).
      unfold u in *. lra. }
    lra.
Qed.

(** Inside the bar, at the top for the first position, at the bottom for the last, moving only downwards. *)
Theorem c47_offset : forall rows total size, (0 < rows < 500000000)%Z -> (rows < total < 2147483648)%Z -> (1 <= size <= 2 * rows)%Z ->
  (forall top, (0 <= top <= total - rows)%Z -> exists o, car_offset rnd top rows total size = Some o /\ (0 <= o /\ o + size <= 2 * rows)%Z) /\
  car_offset rnd 0 rows total size = Some 0%Z /\
  car_offset rnd (total - rows) rows total size = Some (2 * rows - size)%Z /\
  (forall top1 top2 o1 o2, (0 <= top1 <= top2)%Z -> (top2 <= total - rows)%Z ->
     car_offset rnd top1 rows total size = Some o1 -> car_offset rnd top2 rows total size = Some o2 -> (o1 <= o2)%Z).
Proof.
  intros rows tot size Hr Ht Hs.
  set (c := (rows * 2 + 1 - size)%Z). set (d := (tot - rows)%Z).
  assert (Hc : (0 < c < 1073741824)%Z) by lia. assert (Hd : (0 < d < 2147483648)%Z) by lia.
  destruct (per_facts d c) as [Hp Hpc]; [lia|lia|]. set (per := rnd (inject_Z d / inject_Z c)) in *.
  assert (Hform : forall top, (0 <= top <= d)%Z -> let q := rnd (inject_Z top / per) in
    (0 <= q)%Q /\ (0 <= Qfloor q)%Z /\ car_offset rnd top rows tot size = Some (Z.min (rows * 2 - size) (Qfloor q))).
  { intros top Htop q. destruct (quotient_bounds d c top Hd Hc Htop) as [Q0 Q1]. fold per in Q0, Q1. fold q in Q0, Q1.
    assert (F0 : (0 <= Qfloor q)%Z) by (change 0%Z with (Qfloor 0); apply Qfloor_resp_le; exact Q0).
    split; [exact Q0|]. split; [exact F0|].
    assert (F1 : (Qfloor q <= c + 1)%Z).
    { replace (c + 1)%Z with (Qfloor (inject_Z c + 1)); [apply Qfloor_resp_le; exact Q1|]. change 1%Q with (inject_Z 1). rewrite <- inject_Z_plus. apply Qfloor_Z. }
    unfold car_offset. destruct (Z.leb_spec size 0); [lia|]. rewrite i32_some by lia. rewrite i32_some by lia. rewrite i32_some by lia.
    fold c. destruct (Z.leb_spec c 0); [lia|]. fold d. rewrite i32_some by lia. fold per.
    destruct (Qle_bool per 0) eqn:Eb; [apply Qle_bool_iff in Eb; lra|]. cbv zeta. fold q. rewrite quot_floor by exact Q0. rewrite i32_some by lia. reflexivity. }
  assert (Hfirst : car_offset rnd 0 rows tot size = Some 0%Z).
  { destruct (Hform 0%Z ltac:(lia)) as (_ & _ & ->). f_equal. assert (E : (rnd (inject_Z 0 / per) == 0)%Q).
    { apply rnd_zero. change (inject_Z 0) with 0%Q. unfold Qdiv. ring. }
    rewrite E. change (Qfloor 0) with 0%Z. lia. }
  split; [|split; [exact Hfirst|split]].
  - intros top Htop. destruct (Hform top Htop) as (_ & F0 & E). eexists. split; [exact E|]. lia.
  - destruct (Hform d ltac:(lia)) as (Q0 & F0 & E). fold d. rewrite E. f_equal.
    assert (Hq : (c - 1 <= Qfloor (rnd (inject_Z d / per)))%Z).
    { replace (c - 1)%Z with (Qfloor (inject_Z (c - 1))) by apply Qfloor_Z. apply Qfloor_resp_le.
      assert (Hy : (0 <= inject_Z d / per)%Q) by (apply Qle_shift_div_l; [exact Hp|rewrite Qmult_0_l; unfold Qle; cbn; lia]).
      destruct (rnd_bounds _ Hy) as [L _]. eapply Qle_trans; [|exact L].
      assert (E2 : (inject_Z d / per * (1 - u) == (inject_Z d * (1 - u)) / per)%Q) by (field; intro K; rewrite K in Hp; discriminate).
      rewrite E2. apply Qle_shift_div_l; [exact Hp|].
      assert (Hc1 : (inject_Z (c - 1) == inject_Z c - 1)%Q) by (unfold Z.sub; rewrite inject_Z_plus; reflexivity). rewrite Hc1.
      (* (c-1) per = c per - per <= d(1+u) - per; per >= d/c (1-u) >= d (1-u)/2^30 *)
      assert (Hcq : (0 < inject_Z c)%Q) by (unfold Qlt; cbn; lia). assert (Hdq : (0 < inject_Z d)%Q) by (unfold Qlt; cbn; lia).
      assert (Hcm : (inject_Z c <= 1073741824)%Q) by (unfold Qle; cbn; lia).
      assert (Hx : (0 <= inject_Z d / inject_Z c)%Q) by (apply Qle_shift_div_l; [exact Hcq|rewrite Qmult_0_l; lra]).
      destruct (rnd_bounds _ Hx) as [L2 _]. fold per in L2.
      assert (Hpc2 : (inject_Z d * (1 - u) <= per * inject_Z c)%Q).
      { assert (E3 : (inject_Z d * (1 - u) == inject_Z d / inject_Z c * (1 - u) * inject_Z c)%Q) by (field; intro K; rewrite K in Hcq; discriminate).
        rewrite E3. apply Qmult_le_compat_r; [exact L2|lra]. }
      assert (H2 : (per * inject_Z c <= per * 1073741824)%Q) by (rewrite !(Qmult_comm per); apply Qmult_le_compat_r; [exact Hcm|lra]).
      assert (E4 : ((inject_Z c - 1) * per == per * inject_Z c - per)%Q) by ring. rewrite E4. unfold u in *. lra. }
    unfold c in *. lia.
  - intros t1 t2 o1 o2 H12 H2 E1 E2. destruct (Hform t1 ltac:(lia)) as (_ & _ & F1). destruct (Hform t2 ltac:(lia)) as (_ & _ & F2).
    rewrite F1 in E1. rewrite F2 in E2. injection E1 as <-. injection E2 as <-.
    assert (Qfloor (rnd (inject_Z t1 / per)) <= Qfloor (rnd (inject_Z t2 / per)))%Z; [|lia].
    apply Qfloor_resp_le. apply rnd_mono.
    + apply Qle_shift_div_l; [exact Hp|rewrite Qmult_0_l; unfold Qle; cbn; lia].
    + apply Qle_shift_div_l; [exact Hp|]. setoid_replace (inject_Z t1 / per * per)%Q with (inject_Z t1) by (field; intro K; rewrite K in Hp; discriminate). unfold Qle; cbn; lia.
Qed.
End Offset.
Print Assumptions c47_offset.

(** Any rounding will do that meets the hypotheses; not rounding at all does. *)
Example c47_rounding_exists : (forall x y, (0 <= x)%Q -> (x <= y)%Q -> (id x <= id y)%Q) /\ (forall x, (x == 0)%Q -> (id x == 0)%Q) /\
  (forall x, (0 <= x)%Q -> (Qabs (id x - x) <= x * (1 # 1125899906842624))%Q).
Proof.
  split; [intros; assumption|]. split; [intros; assumption|]. intros x H. unfold id. setoid_replace (x - x)%Q with 0%Q by ring.
  change (Qabs 0) with 0%Q. apply Qmult_le_0_compat; [exact H|discriminate].
Qed.
Example c47_example : car_size true 10 100 = Some 2%Z /\ car_offset id 50 10 100 2 = Some 10%Z /\ car_offset id 90 10 100 2 = Some 18%Z.
Proof. vm_compute. auto. Qed.

(** What is drawn: a cell shows the car exactly where its two halves belong to it. *)
Definition half (offset size h : Z) : bool := ((offset <=? h) && (h <? offset + size))%Z.
Theorem c47_cells : forall row offset size floating, (2 <= size)%Z ->
  car_char row offset size floating =
    match half offset size (2 * row), half offset size (2 * row + 1) with
    | false, false => None
    | false, true => Some (if floating then 3 else 0)
    | true, true => Some (if floating then 4 else 1)
    | true, false => Some (if floating then 5 else 2)
    end.
Proof.
  intros row offset size fl Hs. unfold car_char, half. cbv zeta. rewrite !round1_eq.
  destruct (Z.leb_spec size 0); [lia|].
  assert (Hfull : forall x, (2 * ((x + 1) / 2) = x \/ 2 * ((x + 1) / 2) = x + 1)%Z) by (intro; lia).
  assert (Hev : forall x y, (2 * ((x + 1) / 2) = 2 * y + 1 -> False)%Z) by (intros; lia).
  assert (Ho : exists a, (offset / 2 = a /\ (offset = 2 * a \/ offset = 2 * a + 1))%Z) by (exists (offset / 2)%Z; lia).
  assert (He : exists b, ((offset + size) / 2 = b /\ (offset + size = 2 * b \/ offset + size = 2 * b + 1))%Z) by (exists ((offset + size) / 2)%Z; lia).
  destruct Ho as (a & -> & Ho). destruct He as (b & -> & He).
  set (full := (2 * ((size + (if (offset =? 2 * a)%Z then 0 else 1) + (if (offset + size =? 2 * b)%Z then 0 else 1) + 1) / 2))%Z).
  assert (Ef : full = (2 * b - 2 * a + (if (offset + size =? 2 * b)%Z then 0 else 2))%Z).
  { unfold full. destruct (Z.eqb_spec offset (2 * a)); destruct (Z.eqb_spec (offset + size) (2 * b)); lia. }
  clearbody full. subst full. clear Hfull Hev.
  assert (Hlow : (2 * a <=? row * 2)%Z = (offset <=? 2 * row + 1)%Z) by lia.
  assert (Hhigh : (row * 2 <? 2 * a + (2 * b - 2 * a + (if (offset + size =? 2 * b)%Z then 0 else 2)))%Z = (2 * row <? offset + size)%Z).
  { destruct (Z.eqb_spec (offset + size) (2 * b)); lia. }
  rewrite Hlow, Hhigh.
  assert (Hi0 : ((row * 2 =? 2 * a) && negb (row * 2 =? offset))%Z = ((offset =? 2 * row + 1))%Z) by lia.
  assert (Hi2 : ((row * 2 =? 2 * b) && negb (row * 2 =? offset + size))%Z = ((offset + size =? 2 * row + 1))%Z) by lia.
  rewrite Hi0, Hi2. clear Hlow Hhigh Hi0 Hi2.
  destruct (Z.leb_spec offset (2 * row + 1)), (Z.ltb_spec (2 * row) (offset + size)), (Z.leb_spec offset (2 * row)), (Z.ltb_spec (2 * row + 1) (offset + size)),
    (Z.eqb_spec offset (2 * row + 1)), (Z.eqb_spec (offset + size) (2 * row + 1)); cbn [andb]; try lia; destruct fl; reflexivity.
Qed.
Print Assumptions c47_cells.

(** Clicking on the bar: first row, last row, order. *)
Theorem c47_hittest : forall rows total, (1 < rows < 32768)%Z -> (1 < total < 65536)%Z ->
  hittest 0 rows total = Some 0%Z /\ hittest (rows - 1) rows total = Some (total - 1)%Z /\
  forall r1 r2, (0 <= r1 <= r2)%Z -> (r2 < rows)%Z -> exists t1 t2, hittest r1 rows total = Some t1 /\ hittest r2 rows total = Some t2 /\ (0 <= t1 <= t2)%Z /\ (t2 < total)%Z.
Proof.
  intros rows tot Hr Ht.
  assert (Hf : forall r, (0 <= r < rows)%Z -> hittest r rows tot = Some (r * (tot - 1) / (rows - 1))%Z).
  { intros r H. unfold hittest. replace ((rows <=? 1) || (tot <=? 1))%Z with false by lia. assert (0 <= r * (tot - 1) <= 32767 * 65535)%Z by nia.
    rewrite i32_some by lia. f_equal. apply Z.quot_div_nonneg; lia. }
  split; [rewrite Hf by lia; rewrite Z.mul_0_l, Z.div_0_l by lia; reflexivity|].
  split; [rewrite Hf by lia; rewrite Z.mul_comm, Z.div_mul by lia; reflexivity|].
  intros r1 r2 H12 H2. rewrite !Hf by lia. eexists. eexists. split; [reflexivity|]. split; [reflexivity|].
  assert (0 <= r1 * (tot - 1))%Z by nia. assert (r1 * (tot - 1) <= r2 * (tot - 1))%Z by nia. assert (r2 * (tot - 1) <= (tot - 1) * (rows - 1))%Z by nia.
  split; [split; [apply Z.div_pos; lia|apply Z.div_le_mono; lia]|].
  assert (r2 * (tot - 1) / (rows - 1) <= tot - 1)%Z; [|lia]. rewrite <- (Z.div_mul (tot - 1) (rows - 1)) at 2 by lia. apply Z.div_le_mono; lia.
Qed.
Print Assumptions c47_hittest.

(** ** C55 *)
(** What is done with a cache: a lookup (the definitions in force at that moment, the name, what the caller's string
    held before) or a clear. *)
Inductive acop := Get (defs : bytes -> option bytes) (name out : bytes) | Clear.
Definition ac_step (key : bytes -> bytes) (m : acache) (o : acop) : acache :=
  match o with Get d n out => snd (ac_get key d m n out) | Clear => ac_clear end.
(** The operations after the last clear. *)
Definition since (l : list acop) : list acop :=
  fold_left (fun acc o => match o with Clear => [] | _ => acc ++ [o] end) l [].
Definition asks (key : bytes -> bytes) (name : bytes) (o : acop) : bool :=
  match o with Get _ n _ => eqb_bytes (key n) (key name) | Clear => false end.
Definition empty_out (o : acop) : Prop := match o with Get _ _ out => out = [] | Clear => True end.

(** the answer to the first of [l] that asks for [name] *)
Definition first_answer (key : bytes -> bytes) (name : bytes) (l : list acop) : option (bool * bytes) :=
  match find (asks key name) l with Some (Get d n out) => Some (os_alias d n out) | _ => None end.

Lemma os_alias_empty d n e v : os_alias d n [] = (e, v) -> (e = false -> v = []) /\ (e = true -> v <> []).
Proof. unfold os_alias. destruct (d n) as [[|x w]|]; intro E; injection E as <- <-; split; intro K; try discriminate; auto. Qed.

Lemma find_app_none {A} (f : A -> bool) a b : find f (a ++ b) = match find f a with Some x => Some x | None => find f b end.
Proof. induction a as [|x a IH]; cbn [app find]; [reflexivity|]. destruct (f x); auto. Qed.

Lemma cache_state key l : Forall empty_out l -> forall name,
  ac_find key (fold_left (ac_step key) l []) name = option_map snd (first_answer key name (since l)).
Proof.
  intro Hl. induction l as [|o l IH] using rev_ind; intro name; [reflexivity|].
  apply Forall_app in Hl as [Hl Ho]. specialize (IH Hl). apply Forall_inv in Ho.
  unfold since. rewrite !fold_left_app. fold (since l). cbn [fold_left]. set (m := fold_left (ac_step key) l []) in *.
  destruct o as [d n out|]; [|reflexivity]. cbn [empty_out] in Ho. subst out. unfold first_answer. rewrite find_app_none.
  fold (since l). specialize (IH n) as IHn. specialize (IH name). unfold first_answer in IH, IHn. cbn [ac_step]. unfold ac_get.
  destruct (eqb_bytes (key n) (key name)) eqn:Ek.
  - apply eqb_bytes_eq in Ek. assert (Eas : find (asks key name) (since l) = find (asks key n) (since l)).
    { clear -Ek. induction (since l) as [|o r IHr]; [reflexivity|]. cbn [find]. rewrite IHr. replace (asks key name o) with (asks key n o); [reflexivity|].
      destruct o; cbn [asks]; rewrite ?Ek; reflexivity. }
    rewrite Eas in *. destruct (ac_find key m n) as [v|] eqn:Ef.
    + assert (Hm : ac_find key m name = Some v) by congruence.
      destruct (find (asks key n) (since l)) as [[d0 n0 o0|]|] eqn:E0; try (cbn in IHn; discriminate).
      cbn in IHn. injection IHn as ->. destruct (snd (os_alias d0 n0 o0)) eqn:Ev; cbn [snd]; rewrite Hm; cbn; rewrite ?Ev; reflexivity.
    + destruct (find (asks key n) (since l)) as [[d0 n0 o0|]|] eqn:E0; [cbn in IHn; discriminate| |].
      * exfalso. apply find_some in E0 as [_ K]. discriminate.
      * cbn [find asks]. rewrite Ek, eqb_bytes_refl. destruct (os_alias d n []) as [e v]. cbn [snd ac_find]. rewrite Ek, eqb_bytes_refl. reflexivity.
  - assert (Hsame : ac_find key (snd (match ac_find key m n with Some [] => (false, [], m) | Some v => (true, v, m) | None => let '(e, o) := os_alias d n [] in (e, o, (n, o) :: m) end)) name
               = ac_find key m name).
    { destruct (ac_find key m n) as [[|x v]|]; [reflexivity|reflexivity|]. destruct (os_alias d n []) as [e v]. cbn [snd ac_find]. rewrite Ek. reflexivity. }
    etransitivity; [|etransitivity; [exact IH|]].
    + etransitivity; [|exact Hsame]. destruct (ac_find key m n) as [[|x v]|]; [reflexivity|reflexivity|]. destruct (os_alias d n []); reflexivity.
    + destruct (find (asks key name) (since l)) as [o|]; [reflexivity|]. cbn [find asks]. rewrite Ek. reflexivity.
Qed.

(** A lookup answers what the first lookup of that name (in any letter case) since the last clear answered; the first
    lookup answers what the system says. *)
Theorem c55_transparent : forall key l d name, Forall empty_out l ->
  let m := fold_left (ac_step key) l ac_clear in
  let '(e, v, _) := ac_get key d m name [] in
  Some (e, v) = first_answer key name (since (l ++ [Get d name []])).
Proof.
  intros key l d name Hl m. pose proof (cache_state key l Hl name) as Hm. change (fold_left (ac_step key) l []) with m in Hm.
  assert (Hs : since (l ++ [Get d name []]) = since l ++ [Get d name []]) by (unfold since; rewrite fold_left_app; reflexivity). rewrite Hs. unfold first_answer in *. rewrite find_app_none. unfold ac_get. rewrite Hm.
  destruct (find (asks key name) (since l)) as [[d0 n0 o0|]|] eqn:Ef.
  - assert (Ho : o0 = []).
    { apply find_some in Ef as [Hin _]. assert (Hin2 : In (Get d0 n0 o0) l).
      { clear -Hin. revert Hin. induction l as [|o l IH] using rev_ind; intro Hin; [destruct Hin|]. unfold since in Hin. rewrite fold_left_app in Hin. fold (since l) in Hin. cbn [fold_left] in Hin.
        apply in_or_app. destruct o; [|destruct Hin]. apply in_app_or in Hin as [Hin|Hin]; [left; exact (IH Hin)|right; exact Hin]. }
      rewrite Forall_forall in Hl. exact (Hl _ Hin2). }
    subst o0. cbn [option_map]. destruct (os_alias d0 n0 []) as [e v] eqn:Eo. cbn [snd]. destruct (os_alias_empty _ _ _ _ Eo) as [H0 H1].
    destruct v as [|x v]; destruct e; auto; [exfalso; apply H1; reflexivity|discriminate (H0 eq_refl)].
  - exfalso. apply find_some in Ef as [_ K]. discriminate.
  - cbn [option_map]. cbn [find asks]. rewrite eqb_bytes_refl. destruct (os_alias d name []) as [e v]. reflexivity.
Qed.
Print Assumptions c55_transparent.
Definition ex_defs (n : bytes) : option bytes := if eqb_bytes n (lit "ll") then Some (lit "dir /w $*") else None.
Example c55_example : let m := fold_left (ac_step (fun x => x)) [Get ex_defs (lit "ll") []; Get ex_defs (lit "x") []] ac_clear in
  ac_get (fun x => x) (fun _ => None) m (lit "ll") [] = (true, lit "dir /w $*", m) /\ ac_get (fun x => x) (fun _ => Some (lit "y")) m (lit "x") [] = (false, [], m).
Proof. vm_compute. auto. Qed.
(** When the caller's string is not empty, an unknown name comes back from the cache as an alias with that text. *)
Theorem c55_dirty_string_refuted : exists d name out,
  let '(e1, _, m) := ac_get (fun x => x) d ac_clear name out in
  let '(e2, v2, _) := ac_get (fun x => x) d m name [] in
  d name = None /\ e1 = false /\ e2 = true /\ v2 = out.
Proof. exists (fun _ => None), (lit "foo"), (lit "left over"). vm_compute. auto. Qed.
Print Assumptions c55_dirty_string_refuted.
