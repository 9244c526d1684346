(** The memory of a session stream holds the file of SsSpec. *)
From Verif Require Import Base SsModel SsSpec.
Open Scope nat_scope.

Section Inv.
Variable MX : nat.
Definition inv (s : stream) : Prop := (s_cap s = 0 /\ s_size s = 0) \/ (s_size s < s_cap s /\ s_cap s <= MX).
Definition file (s : stream) : bytes := firstn (s_size s) (s_data s).
Lemma file_len s : inv s -> length (file s) = s_size s.
Proof. intro H. unfold file, inv, s_cap in *. rewrite firstn_length. lia. Qed.
Lemma file_max s : inv s -> s_size s <= MX - 1.
Proof. unfold inv. lia. Qed.
End Inv.
Section P.
Variables MX B K : nat.
Variable junk : nat -> N.
Hypothesis HB : 2 <= B.
Hypothesis HM : B <= MX.
Notation inv := (inv MX).

(** ** Writing *)
Lemma realloc_len d n : length d <= n -> length (realloc junk d n) = n.
Proof. intro H. unfold realloc. rewrite app_length, firstn_length, map_length, seq_length. lia. Qed.
Lemma realloc_old d n : length d <= n -> firstn (length d) (realloc junk d n) = d.
Proof. intro H. unfold realloc. rewrite (firstn_all2 d) by lia. rewrite firstn_app, Nat.sub_diag, firstn_all. cbn [firstn]. apply app_nil_r. Qed.
Lemma grow_ok off n s : inv s -> let s' := grow MX B junk off n s in
  s_size s' = s_size s /\ s_cap s <= s_cap s' /\ firstn (s_cap s) (s_data s') = s_data s /\ 1 <= s_cap s' <= MX /\ Nat.min MX (off + n + 1) <= s_cap s' /\ s_size s < s_cap s'.
Proof.
  intros Hi. cbv zeta. unfold grow. destruct (s_cap s <? off + (n + 1)) eqn:E.
  - set (c := if Nat.max B (s_cap s * 3 / 2) <? off + (n + 1) then (off + (n + 1)) * 3 / 2 else Nat.max B (s_cap s * 3 / 2)).
    assert (Hc : Nat.max B (s_cap s) <= c /\ off + (n + 1) <= c) by (unfold c; destruct (Nat.max B (s_cap s * 3 / 2) <? off + (n + 1)) eqn:E2; lia).
    assert (Hle : length (s_data s) <= Nat.min c MX) by (fold (s_cap s); unfold inv in Hi; lia).
    pose proof (realloc_len _ _ Hle) as R1. pose proof (realloc_old _ _ Hle) as R2. set (d := realloc junk (s_data s) (Nat.min c MX)) in *. fold (s_cap s) in R2. unfold inv in Hi. change (s_cap {| s_data := d; s_size := s_size s |}) with (length d). rewrite R1. cbn [s_size s_data].
    split; [reflexivity|]. split; [exact Hle|]. split; [exact R2|]. fold (s_cap s) in Hle. split; [lia|]. split; lia.
  - unfold inv in Hi. split; [reflexivity|]. split; [lia|]. split; [apply firstn_all|]. split; [lia|]. split; lia.
Qed.
Lemma poke_ok off b d : off + length b <= length d -> poke off b d = Some (firstn off d ++ b ++ skipn (off + length b) d).
Proof. intro H. unfold poke. replace (off + length b <=? length d) with true by lia. reflexivity. Qed.
Lemma poke_len (off : nat) (b d : bytes) : off + length b <= length d -> length (firstn off d ++ b ++ skipn (off + length b) d) = length d.
Proof. intro H. rewrite !app_length, firstn_length, skipn_length. lia. Qed.
Lemma fits_len p b : length (fits MX p b) = Nat.min (MX - 1 - p) (length b).
Proof. unfold fits. apply firstn_length. Qed.

Lemma s_write_ok off buf s : inv s -> exists s' n, s_write MX B junk off buf s = Some (s', off + n, n) /\ inv s' /\ n = length (fits MX off buf) /\
  (off <= s_size s -> file s' = overwrite off (fits MX off buf) (file s)).
Proof.
  intro Hi. unfold s_write. destruct (grow_ok off (length buf) s Hi) as (G1 & G2 & G3 & G4 & G5 & G6). set (g := grow MX B junk off (length buf) s) in *.
  assert (Hfile : firstn (s_size s) (s_data g) = file s). { unfold file. rewrite <- G3, firstn_firstn. f_equal. unfold inv in Hi. lia. }
  destruct (s_cap g - 1 <=? off) eqn:E.
  - exists g, 0. split; [rewrite Nat.add_0_r; reflexivity|]. split; [right; lia|]. rewrite fits_len. split; [lia|]. intro Ho.
    assert (Z0 : fits MX off buf = []) by (apply length_zero_iff_nil; rewrite fits_len; lia). rewrite Z0. unfold overwrite. cbn [app length]. rewrite Nat.add_0_r, firstn_skipn. unfold file at 1. rewrite G1. exact Hfile.
  - set (n := Nat.min (length buf) (s_cap g - 1 - off)). assert (En : n = length (fits MX off buf)) by (rewrite fits_len; lia).
    assert (Eb : firstn n buf = fits MX off buf). { unfold fits. destruct (Nat.le_gt_cases (length buf) n) as [X|X]; [rewrite !firstn_all2 by (rewrite ?En, ?fits_len in *; lia); reflexivity|]. f_equal. rewrite fits_len in En. lia. }
    assert (Hl : length (firstn n buf) = n) by (rewrite Eb; lia). unfold s_cap in *.
    assert (Hpl : off + length (firstn n buf) <= length (s_data g)) by lia.
    rewrite poke_ok by exact Hpl. pose proof (poke_len off (firstn n buf) (s_data g) Hpl) as Hdl. set (d := firstn off (s_data g) ++ firstn n buf ++ skipn (off + length (firstn n buf)) (s_data g)) in *.
    assert (Hoff : off <= s_size s -> firstn off (s_data g) = firstn off (file s)). { intro Ho. rewrite <- Hfile, firstn_firstn. f_equal. lia. }
    destruct (s_size g <? off + n) eqn:E2.
    + rewrite poke_ok by (cbn [length]; lia). exists (mkS (firstn (off + n) d ++ [0%N] ++ skipn (off + n + length [0%N]) d) (off + n)), n. split; [reflexivity|].
      assert (Hd2 : length (firstn (off + n) d ++ [0%N] ++ skipn (off + n + length [0%N]) d) = length (s_data g)) by (rewrite poke_len by (cbn [length]; lia); exact Hdl).
      split; [right; unfold s_cap; cbn [s_size s_data]; rewrite Hd2; lia|]. split; [exact En|]. intro Ho. unfold file at 1. cbn [s_size s_data].
      rewrite firstn_app, firstn_firstn, Nat.min_id, firstn_length, Nat.min_l, Nat.sub_diag by lia. cbn [firstn]. rewrite app_nil_r. unfold d, overwrite. rewrite app_assoc, firstn_app.
      assert (La : length (firstn off (s_data g) ++ firstn n buf) = off + n) by (rewrite app_length, Hl, firstn_length; lia). rewrite La, Nat.sub_diag. cbn [firstn]. rewrite app_nil_r, firstn_all2 by lia.
      rewrite Hoff by exact Ho. rewrite Eb. f_equal. rewrite skipn_all2; [rewrite app_nil_r; reflexivity|]. rewrite (file_len MX) by exact Hi. lia.
    + exists (mkS d (s_size g)), n. split; [reflexivity|]. split; [right; unfold s_cap; cbn [s_size s_data]; rewrite Hdl; lia|]. split; [exact En|]. intro Ho. unfold file at 1. cbn [s_size s_data]. unfold d, overwrite.
      rewrite firstn_app, firstn_firstn, firstn_app, Hl. rewrite firstn_length. rewrite (Nat.min_l off (length (s_data g))) by lia. rewrite (Nat.min_r (s_size g) off) by lia. rewrite Hoff by exact Ho. f_equal. rewrite Eb, <- En.
      rewrite (firstn_all2 (fits MX off buf)) by lia. f_equal. rewrite <- Hfile, skipn_firstn_comm. f_equal. lia.
Qed.

(** writing one string after the other is writing the strings joined *)
Lemma firstn_ext (l : bytes) a b : Nat.min a (length l) = Nat.min b (length l) -> firstn a l = firstn b l.
Proof. intro H. destruct (Nat.le_gt_cases (length l) a); [rewrite !firstn_all2 by lia; reflexivity|]. f_equal. lia. Qed.
Lemma fits_app p a b : fits MX p (a ++ b) = fits MX p a ++ fits MX (p + length (fits MX p a)) b.
Proof.
  rewrite fits_len. unfold fits. rewrite firstn_app. f_equal. apply firstn_ext. lia.
Qed.
Lemma overwrite_len p b f : p <= length f -> length (overwrite p b f) = Nat.max (length f) (p + length b).
Proof. intro H. unfold overwrite. rewrite !app_length, firstn_length, skipn_length. lia. Qed.
Lemma skipn_skipn' {A} : forall b a (l : list A), skipn a (skipn b l) = skipn (b + a) l.
Proof. induction b as [|b IH]; intros a l; [reflexivity|]. destruct l as [|x l]; [cbn [skipn Nat.add]; rewrite skipn_nil; reflexivity|]. cbn [skipn Nat.add]. apply IH. Qed.
Lemma overwrite_app p a b f : p <= length f -> overwrite (p + length a) b (overwrite p a f) = overwrite p (a ++ b) f.
Proof.
  intro H. unfold overwrite. assert (L : length (firstn p f) = p) by (rewrite firstn_length; lia).
  rewrite (app_assoc (firstn p f) a). rewrite firstn_app. rewrite app_length, L, Nat.sub_diag. cbn [firstn]. rewrite app_nil_r, firstn_all2 by (rewrite app_length; lia).
  rewrite skipn_app, app_length, L, skipn_all2 by (rewrite app_length, L; lia). cbn [app]. replace (p + length a + length b - (p + length a)) with (length b) by lia. rewrite skipn_skipn', <- !app_assoc, app_length, Nat.add_assoc. reflexivity.
Qed.

Lemma write_text_ok rest : forall pend off total s, inv s -> let W := pend ++ totext rest in
  exists s' total', write_text MX B K junk pend rest off total s = Some (s', off + length (fits MX off W), total') /\ inv s' /\
    total' <= total + length pend + length rest /\ (total' = total + length pend + length rest <-> length W <= MX - 1 - off) /\
    (off <= s_size s -> file s' = overwrite off (fits MX off W) (file s)).
Proof.
  induction rest as [|c rest IH]; intros pend off total s Hi; cbv zeta; cbn [totext write_text].
  - rewrite app_nil_r. destruct pend as [|c pend].
    + exists s, total. cbn [fits length]. replace (fits MX off []) with (@nil N) by (unfold fits; rewrite firstn_nil; reflexivity). cbn [length]. rewrite Nat.add_0_r. split; [reflexivity|]. split; [exact Hi|]. split; [lia|]. split; [lia|].
      intro Ho. unfold overwrite. cbn [app length]. rewrite Nat.add_0_r, firstn_skipn. reflexivity.
    + destruct (s_write_ok off (c :: pend) s Hi) as (s' & n & E & Hi' & En & Ef). rewrite E. exists s', (total + n). rewrite <- En. split; [reflexivity|]. split; [exact Hi'|]. rewrite fits_len in En. cbn [length] in *. split; [lia|]. split; [lia|]. exact Ef.
  - (* what is pending is written *)
    set (pre := match pend with [] => Some (s, off, 0) | _ :: _ => s_write MX B junk off pend s end).
    assert (Hpre : exists s1 n1, pre = Some (s1, off + n1, n1) /\ inv s1 /\ n1 = length (fits MX off pend) /\ (off <= s_size s -> file s1 = overwrite off (fits MX off pend) (file s))).
    { unfold pre. destruct pend as [|x pend]; [|apply s_write_ok; exact Hi]. exists s, 0. replace (fits MX off []) with (@nil N) by (unfold fits; rewrite firstn_nil; reflexivity). rewrite Nat.add_0_r. split; [reflexivity|]. split; [exact Hi|]. split; [reflexivity|]. intro Ho. unfold overwrite. cbn [app length]. rewrite Nat.add_0_r, firstn_skipn. reflexivity. }
    destruct (c =? 10)%N eqn:Ec; cbn [orb].
    + destruct Hpre as (s1 & n1 & E1 & I1 & N1 & F1). rewrite E1. destruct (s_write_ok (off + n1) [13%N] s1 I1) as (s2 & n2 & E2 & I2 & N2 & F2). rewrite E2.
      destruct (IH [c] (off + n1 + n2) (total + n1) s2 I2) as (s3 & t3 & E3 & I3 & L3 & Q3 & F3). rewrite E3. exists s3, t3.
      assert (c = 10%N) by lia. subst c.
      assert (EW : pend ++ 13%N :: 10%N :: totext rest = pend ++ [13%N] ++ ([10%N] ++ totext rest)) by reflexivity.
      assert (Ew : fits MX off (pend ++ 13%N :: 10%N :: totext rest) = fits MX off pend ++ fits MX (off + n1) [13%N] ++ fits MX (off + n1 + n2) ([10%N] ++ totext rest)). { rewrite EW, fits_app, <- N1, fits_app, <- N2. reflexivity. }
      split; [rewrite Ew, !app_length, <- N1, <- N2; f_equal; f_equal; f_equal; lia|]. split; [exact I3|]. rewrite fits_len in N1, N2. cbn [length app] in *. rewrite app_length. cbn [length]. split; [lia|]. split; [lia|]. intro Ho. specialize (F1 Ho).
      assert (S1 : off + n1 <= s_size s1). { rewrite <- (file_len MX s1 I1), F1, overwrite_len by (rewrite (file_len MX) by exact Hi; exact Ho). rewrite fits_len. lia. }
      specialize (F2 S1). assert (S2 : off + n1 + n2 <= s_size s2). { rewrite <- (file_len MX s2 I2), F2, overwrite_len by (rewrite (file_len MX) by exact I1; exact S1). rewrite fits_len. cbn [length]. lia. }
      rewrite (F3 S2), F2, F1, Ew. rewrite N2 at 1. replace (off + n1 + Nat.min (MX - 1 - (off + n1)) 1) with (off + n1 + length (fits MX (off + n1) [13%N])) by (rewrite fits_len; reflexivity).
      rewrite overwrite_app by (rewrite overwrite_len by (rewrite (file_len MX) by exact Hi; exact Ho); rewrite fits_len; lia).
      replace (off + n1) with (off + length (fits MX off pend)) at 1 by (rewrite fits_len; lia). rewrite overwrite_app by (rewrite (file_len MX) by exact Hi; exact Ho). reflexivity.
    + destruct (length pend =? K) eqn:Ek.
      * destruct Hpre as (s1 & n1 & E1 & I1 & N1 & F1). rewrite E1. destruct (IH [c] (off + n1) (total + n1) s1 I1) as (s3 & t3 & E3 & I3 & L3 & Q3 & F3). rewrite E3. exists s3, t3.
        assert (Ew : fits MX off (pend ++ c :: totext rest) = fits MX off pend ++ fits MX (off + n1) ([c] ++ totext rest)). { change (pend ++ c :: totext rest) with (pend ++ ([c] ++ totext rest)). rewrite fits_app, <- N1. reflexivity. }
        split; [rewrite Ew, app_length, <- N1; f_equal; f_equal; f_equal; lia|]. split; [exact I3|]. rewrite fits_len in N1. cbn [length app] in *. rewrite app_length. cbn [length]. split; [lia|]. split; [lia|]. intro Ho. specialize (F1 Ho).
        assert (S1 : off + n1 <= s_size s1). { rewrite <- (file_len MX s1 I1), F1, overwrite_len by (rewrite (file_len MX) by exact Hi; exact Ho). rewrite fits_len. lia. }
        rewrite (F3 S1), F1, Ew. replace (off + n1) with (off + length (fits MX off pend)) at 1 by (rewrite fits_len; lia). rewrite overwrite_app by (rewrite (file_len MX) by exact Hi; exact Ho). reflexivity.
      * destruct (IH (pend ++ [c]) off total s Hi) as (s3 & t3 & E3 & I3 & L3 & Q3 & F3). rewrite E3. exists s3, t3. rewrite <- app_assoc in *. cbn [app] in *. rewrite app_length in L3, Q3. cbn [length] in *. split; [reflexivity|]. split; [exact I3|]. split; [lia|]. split; [lia|exact F3].
Qed.
Lemma totext_len s : length s <= length (totext s).
Proof. induction s as [|c s IH]; [cbn; lia|]. cbn [totext]. destruct (c =? 10)%N; cbn [length]; lia. Qed.
Lemma totext_firstn s : forall k, exists r, totext s = totext (firstn k s) ++ r /\ (k < length s -> k <= length (totext (firstn k s)) /\ 0 < length r).
Proof.
  induction s as [|c s IH]; intro k; [exists []; rewrite firstn_nil; split; [reflexivity|cbn; lia]|]. destruct k as [|k]; [exists (totext (c :: s)); split; [reflexivity|]; intros _; pose proof (totext_len (c :: s)); cbn [length] in *; lia|].
  destruct (IH k) as (r & E & L). exists r. cbn [firstn totext length]. destruct (c =? 10)%N; rewrite E; (split; [reflexivity|]); intro H; cbn [length]; specialize (L ltac:(lia)); lia.
Qed.

Lemma h_write_ok (text : bool) off buf s : inv s -> let W := if text then totext buf else buf in
  exists s' n, h_write MX B K junk text off (firstn MX buf) s = Some (s', off + length (fits MX off W), n) /\ inv s' /\ (n = length buf <-> length (fits MX off W) = length W) /\
    (off <= s_size s -> file s' = overwrite off (fits MX off W) (file s)).
Proof.
  intro Hi. cbv zeta. unfold h_write. destruct text.
  - destruct (write_text_ok (firstn MX buf) [] off 0 s Hi) as (s' & n & E & I' & L & Q & F). cbn [app] in *. destruct (totext_firstn buf MX) as (r & Er & Lr).
    assert (Ew : fits MX off (totext buf) = fits MX off (totext (firstn MX buf))).
    { rewrite Er, fits_app. destruct (Nat.le_gt_cases (length buf) MX) as [X|X].
      - rewrite firstn_all2 in Er by exact X. assert (r = []) by (apply length_zero_iff_nil; apply (f_equal (@length N)) in Er; rewrite app_length in Er; lia). subst r. unfold fits at 2. rewrite firstn_nil. apply app_nil_r.
      - specialize (Lr X). rewrite fits_len, (Nat.min_l (MX - 1 - off)) by lia. unfold fits at 2. replace (MX - 1 - (off + (MX - 1 - off))) with 0 by lia. apply app_nil_r. }
    exists s', n. rewrite Ew. split; [exact E|]. split; [exact I'|]. split; [|exact F]. rewrite firstn_length in *. rewrite fits_len. cbn [length] in *. rewrite Er, app_length. pose proof (totext_len (firstn MX buf)) as T. rewrite firstn_length in T.
    destruct (Nat.le_gt_cases (length buf) MX) as [X|X]; [|specialize (Lr X); lia].
    rewrite firstn_all2 in Er by exact X. assert (r = []) by (apply length_zero_iff_nil; apply (f_equal (@length N)) in Er; rewrite app_length in Er; lia). subst r. cbn [length]. lia.
  - destruct (s_write_ok off (firstn MX buf) s Hi) as (s' & n & E & I' & L & F).
    assert (Ew : fits MX off (firstn MX buf) = fits MX off buf) by (unfold fits; rewrite firstn_firstn; f_equal; lia).
    exists s', n. rewrite Ew in *. split; [rewrite E, L; reflexivity|]. split; [exact I'|]. split; [rewrite L; lia|exact F].
Qed.
Lemma write_all_ok (text append : bool) strs : forall off s, inv s -> append = true \/ off <= s_size s ->
  exists s' off' ok, write_all MX B K junk text append strs off s = Some (s', off', ok) /\ inv s' /\ f_write_all MX text append strs off (file s) = (file s', off', ok).
Proof.
  induction strs as [|b strs IH]; intros off s Hi Ho; cbn [write_all f_write_all]; [exists s, off, true; auto|].
  rewrite (file_len MX) by exact Hi. set (o := if append then s_size s else off). assert (Hoo : o <= s_size s) by (unfold o; destruct append; [lia|destruct Ho; [discriminate|assumption]]).
  destruct (h_write_ok text o b s Hi) as (s1 & n & E & I1 & Q & F). rewrite E. specialize (F Hoo). set (W := if text then totext b else b) in *.
  assert (S1 : o + length (fits MX o W) <= s_size s1). { rewrite <- (file_len MX s1 I1), F, overwrite_len by (rewrite (file_len MX) by exact Hi; exact Hoo). lia. }
  destruct (n =? length b) eqn:En.
  - replace (length (fits MX o W) =? length W) with true by (destruct Q as [Q _]; specialize (Q ltac:(lia)); lia). rewrite <- F. apply IH; [exact I1|right; exact S1].
  - replace (length (fits MX o W) =? length W) with false by (destruct (length (fits MX o W) =? length W) eqn:X; [destruct Q as [_ Q]; specialize (Q ltac:(lia)); lia|reflexivity]). rewrite <- F. eauto 10.
Qed.
(** no access is outside memory, wherever the position is *)
Lemma write_all_safe (text append : bool) strs : forall off s, inv s -> exists s' off' ok, write_all MX B K junk text append strs off s = Some (s', off', ok) /\ inv s'.
Proof.
  induction strs as [|b strs IH]; intros off s Hi; cbn [write_all]; [exists s, off, true; auto|]. destruct (h_write_ok text (if append then s_size s else off) b s Hi) as (s1 & n & E & I1 & _). rewrite E. destruct (n =? length b); [apply IH; exact I1|eauto 10].
Qed.
End P.
