(** Reading from the memory of a session stream is reading from the file. *)
From Verif Require Import Base SsModel SsSpec SsProofs.
Open Scope nat_scope.

Lemma chars_ind (P : bytes -> Prop) : P [] -> (forall c, P [c]) -> (forall c d s, P s -> P (d :: s) -> P (c :: d :: s)) -> forall s, P s.
Proof. intros H0 H1 H2. assert (H : forall n s, length s <= n -> P s). { induction n as [|n IH]; intros [|c [|d s]] Hl; cbn [length] in Hl; try lia; auto. apply H2; apply IH; cbn [length]; lia. } intro s. apply (H (length s)). lia. Qed.
Lemma chars_two text c d s : chars text (c :: d :: s) = if text && ((c =? 13) && (d =? 10))%N then (10%N, 2) :: chars text s else (c, 1) :: chars text (d :: s). Proof. reflexivity. Qed.
Lemma chars_size text s : size_of (chars text s) = length s.
Proof.
  induction s as [|c|c d s IH1 IH2] using chars_ind; [reflexivity|reflexivity|]. rewrite chars_two. destruct (text && ((c =? 13) && (d =? 10))%N); cbn [size_of fold_right snd length] in *; fold (size_of (chars text s)) in *; fold (size_of (chars text (d :: s))) in *; lia.
Qed.
Lemma chars_pos text s : Forall (fun c : N * nat => 1 <= snd c) (chars text s).
Proof. induction s as [|c|c d s I1 I2] using chars_ind; [apply Forall_nil|apply Forall_cons; [cbn; lia|apply Forall_nil]|]. rewrite chars_two. destruct (text && ((c =? 13) && (d =? 10))%N); apply Forall_cons; cbn [snd]; try lia; assumption. Qed.
Lemma chars_le text s : length (chars text s) <= length s.
Proof. induction s as [|c|c d s I1 I2] using chars_ind; [cbn; lia|cbn; lia|]. rewrite chars_two. destruct (text && ((c =? 13) && (d =? 10))%N); cbn [length] in *; lia. Qed.
Lemma chars_skip text s : forall n, skipn n (chars text s) = chars text (skipn (size_of (firstn n (chars text s))) s).
Proof.
  induction s as [|c|c d s IH1 IH2] using chars_ind; intro n.
  - cbn [chars]. rewrite firstn_nil, !skipn_nil. reflexivity.
  - destruct n as [|n]; [reflexivity|]. cbn [chars skipn firstn size_of fold_right snd]. rewrite firstn_nil, !skipn_nil. reflexivity.
  - destruct n as [|n]; [reflexivity|]. rewrite chars_two. destruct (text && ((c =? 13) && (d =? 10))%N); cbn [skipn firstn size_of fold_right snd Nat.add]; [apply IH1|apply IH2].
Qed.
Lemma chars_text s : map fst (chars true s) = fromtext s.
Proof. induction s as [|c|c d s IH1 IH2] using chars_ind; [reflexivity|reflexivity|]. rewrite chars_two. cbn [andb]. change (fromtext (c :: d :: s)) with (if ((c =? 13) && (d =? 10))%N then 10%N :: fromtext s else c :: fromtext (d :: s)). destruct ((c =? 13) && (d =? 10))%N; cbn [map fst]; f_equal; assumption. Qed.
Lemma chars_bin s : chars false s = map (fun c => (c, 1)) s.
Proof. induction s as [|c [|d s] IH]; [reflexivity|reflexivity|]. rewrite chars_two. cbn [andb map]. f_equal. exact IH. Qed.
Lemma read_text_ok s : forall max, read_text max s = (map fst (firstn max (chars true s)), size_of (firstn max (chars true s))).
Proof.
  induction s as [|c|c d s IH1 IH2] using chars_ind; intros [|max]; try reflexivity.
  - cbn [chars firstn]. rewrite firstn_nil. reflexivity.
  - rewrite chars_two. change (read_text (S max) (c :: d :: s)) with (if ((c =? 13) && (d =? 10))%N then let '(o, n) := read_text max s in (10%N :: o, S (S n)) else let '(o, n) := read_text max (d :: s) in (c :: o, S n)).
    cbn [andb]. destruct ((c =? 13) && (d =? 10))%N; [rewrite IH1|rewrite IH2]; reflexivity.
Qed.

Lemma first_line_split s : forall l nl, first_line s = (l, nl) -> s = l ++ (if nl then 10%N :: skipn (length l + 1) s else []) /\ ~ In 10%N l /\ skipn (length l) s = if nl then 10%N :: skipn (length l + 1) s else [].
Proof.
  induction s as [|c s IH]; intros l nl E; cbn [first_line] in E; [injection E as <- <-; split; [reflexivity|]; split; [intros []|reflexivity]|]. destruct (c =? 10)%N eqn:Ec.
  - injection E as <- <-. cbn [app length skipn Nat.add]. assert (c = 10%N) by lia. subst c. split; [reflexivity|]. split; [intros []|reflexivity].
  - destruct (first_line s) as [l1 b] eqn:E1. injection E as <- <-. destruct (IH l1 b eq_refl) as (A & Hn & C). cbn [app length skipn Nat.add]. split; [f_equal; exact A|]. split; [intros [X|X]; [lia|exact (Hn X)]|exact C].
Qed.
Lemma first_line_app a b : ~ In 10%N a -> first_line (a ++ b) = (a ++ fst (first_line b), snd (first_line b)).
Proof.
  induction a as [|c a IH]; intro H; cbn [app first_line]; [destruct (first_line b); reflexivity|]. assert (Hc : (c =? 10)%N = false) by (destruct (c =? 10)%N eqn:E; [exfalso; apply H; left; lia|reflexivity]). rewrite Hc, IH by (intro X; apply H; right; exact X). reflexivity.
Qed.

Definition ends_cr (l : bytes) : bool := (1 <=? length l) && (last l 0 =? 13)%N.
Lemma ends_cr_drop l : (if ends_cr l then removelast l else l) = drop_cr l.
Proof. unfold ends_cr, drop_cr. destruct l; [reflexivity|]. cbn [length]. replace (1 <=? S (length l)) with true by lia. reflexivity. Qed.
Lemma gets_ok text s : forall k l nl buf, first_line s = (l, nl) ->
  gets_loop text k s buf = if k <=? length l then (buf ++ firstn k l, k) else if nl then ((if text then drop_cr (buf ++ l) else buf ++ l) ++ [10%N], length l + 1) else (buf ++ l, length l).
Proof.
  induction s as [|c s IH]; intros k l nl buf E; cbn [first_line] in E.
  - injection E as <- <-. destruct k; cbn [gets_loop length Nat.leb firstn]; rewrite app_nil_r; reflexivity.
  - destruct (c =? 10)%N eqn:Ec.
    + injection E as <- <-. destruct k as [|k]; cbn [gets_loop length Nat.leb firstn]; rewrite ?app_nil_r; [reflexivity|]. rewrite Ec. rewrite <- ends_cr_drop. unfold ends_cr. destruct text; cbn [andb Nat.add]; [|reflexivity]. change (match length buf with 0 => false | S _ => true end) with (1 <=? length buf). destruct ((1 <=? length buf) && (last buf 0 =? 13)%N); reflexivity.
    + destruct (first_line s) as [l1 b] eqn:E1. injection E as <- <-. destruct k as [|k]; cbn [gets_loop length Nat.leb firstn]; [rewrite app_nil_r; reflexivity|]. rewrite Ec, (IH k l1 b (buf ++ [c]) eq_refl), <- !app_assoc. cbn [app]. destruct (k <=? length l1); [reflexivity|]. destruct b; reflexivity.
Qed.
Lemma upto_nul_id l : ~ In 0%N l -> upto_nul l = l.
Proof. induction l as [|c l IH]; intro H; [reflexivity|]. cbn [upto_nul]. replace (c =? 0)%N with false by (symmetry; apply N.eqb_neq; intro E; apply H; left; exact E). f_equal. apply IH. intro X. apply H. right. exact X. Qed.
Lemma last_In (l : bytes) : l <> [] -> In (last l 0%N) l.
Proof. intro H. rewrite (app_removelast_last 0%N H) at 2. apply in_or_app. right. left. reflexivity. Qed.
Lemma drop_cr_In x l : In x (drop_cr l) -> In x l.
Proof. unfold drop_cr. destruct (last l 0 =? 13)%N; [|auto]. destruct l as [|c l]; [auto|]. intro H. rewrite (app_removelast_last 0%N (l := c :: l)) by discriminate. apply in_or_app. left. exact H. Qed.
Lemma last_app_ne (a b : bytes) : b <> [] -> last (a ++ b) 0%N = last b 0%N.
Proof. intro H. rewrite (app_removelast_last 0%N H), app_assoc, !last_last. reflexivity. Qed.
Lemma drop_cr_app a b : b <> [] -> drop_cr (a ++ b) = a ++ drop_cr b.
Proof. intro H. unfold drop_cr. rewrite last_app_ne by exact H. destruct (last b 0 =? 13)%N; [|reflexivity]. rewrite removelast_app by exact H. reflexivity. Qed.

Lemma line_end (t acc l : bytes) (chop : bool) (o : nat) X Y : (forall x, In x t -> In x l) -> ~ In 0%N l ->
  (if length (t ++ [10%N]) =? 0 then X
   else if (length (upto_nul (t ++ [10%N])) =? 0) || negb (last (upto_nul (t ++ [10%N])) 0 =? 10)%N then Y
   else (acc ++ (if chop then removelast (upto_nul (t ++ [10%N])) else upto_nul (t ++ [10%N])), true, o)) = (acc ++ t ++ (if chop then [] else [10%N]), true, o).
Proof.
  intros Ht Hz. assert (Hlen : length (t ++ [10%N]) =? 0 = false) by (rewrite app_length; cbn [length]; lia). rewrite Hlen.
  rewrite upto_nul_id by (intro E; apply in_app_or in E as [E|[E|[]]]; [exact (Hz (Ht _ E))|discriminate E]). rewrite Hlen, last_last. cbn [N.eqb Pos.eqb negb orb]. rewrite removelast_last. destruct chop; [rewrite app_nil_r; reflexivity|reflexivity].
Qed.

Section R.
Variables MX B : nat.
Hypothesis HB : 2 <= B.
Hypothesis HM : B <= MX.

Lemma avail_file off s : avail off s = skipn off (file s). Proof. reflexivity. Qed.
Lemma s_read_ok text max off s : s_read text max off s = (map fst (firstn max (chars text (skipn off (file s)))), size_of (firstn max (chars text (skipn off (file s))))).
Proof.
  unfold s_read. rewrite avail_file. destruct text; [apply read_text_ok|]. rewrite chars_bin, firstn_map, map_map. cbn [fst]. rewrite map_id. f_equal. generalize (firstn max (skipn off (file s))). intro b. induction b as [|c b IH]; [reflexivity|]. cbn [map size_of fold_right snd length]. fold (size_of (map (fun c => (c, 1)) b)). rewrite <- IH. reflexivity.
Qed.
Lemma read_all_ok fuel : forall text rlen off s acc, 1 <= rlen -> length (skipn off (file s)) < fuel ->
  read_all MX fuel text rlen off s acc = (acc ++ map fst (chars text (skipn off (file s))), off + length (skipn off (file s))).
Proof.
  induction fuel as [|fuel IH]; intros text rlen off s acc Hr Hf; [lia|]. cbn [read_all]. rewrite s_read_ok. set (cs := chars text (skipn off (file s))) in *. pose proof (chars_size text (skipn off (file s))) as Hs. fold cs in Hs.
  rewrite map_length, firstn_length. destruct (Nat.min rlen (length cs) <? rlen) eqn:E.
  - rewrite firstn_all2 by lia. rewrite Hs. reflexivity.
  - assert (Hk : skipn (off + size_of (firstn rlen cs)) (file s) = skipn (size_of (firstn rlen cs)) (skipn off (file s))) by (rewrite skipn_skipn'; reflexivity).
    assert (Hsz : 1 <= size_of (firstn rlen cs) <= length (skipn off (file s))).
    { split.
      - assert (X : forall l, Forall (fun c : N * nat => 1 <= snd c) l -> length l <= size_of l). { induction 1 as [|c l Hc Hl IHl]; [cbn; lia|]. cbn [size_of fold_right length]. fold (size_of l). lia. }
        pose proof (chars_pos text (skipn off (file s))) as Y. fold cs in Y.
        assert (Y' : Forall (fun c : N * nat => 1 <= snd c) (firstn rlen cs)) by (rewrite <- (firstn_skipn rlen cs) in Y; apply Forall_app in Y; tauto). specialize (X _ Y'). rewrite firstn_length in X. lia.
      - assert (X : forall a b, size_of (a ++ b) = size_of a + size_of b). { induction a as [|c a IHa]; intro b; [reflexivity|]. cbn [app size_of fold_right]. fold (size_of (a ++ b)). fold (size_of a). rewrite IHa. lia. }
        rewrite <- Hs. rewrite <- (firstn_skipn rlen cs) at 2. rewrite X. lia. }
    rewrite IH; [|lia|rewrite Hk, skipn_length; lia]. rewrite Hk. pose proof (chars_skip text (skipn off (file s)) rlen) as Hc. fold cs in Hc. rewrite <- Hc. rewrite <- app_assoc, <- map_app, firstn_skipn. f_equal. rewrite (skipn_length (size_of _)). lia.
Qed.

Lemma read_line_ok fuel : forall text chop off s acc, length (skipn off (file s)) < fuel -> fine_line B text (skipn off (file s)) ->
  read_line B fuel text chop off s acc =
    let '(l, nl) := first_line (skipn off (file s)) in
    if nl then (acc ++ (if text then drop_cr l else l) ++ (if chop then [] else [10%N]), true, off + length l + 1) else (acc ++ l, 0 <? length (acc ++ l), off + length l).
Proof.
  induction fuel as [|fuel IH]; intros text chop off s acc Hf Hg; [lia|]. cbn [read_line]. unfold s_gets. replace (B =? 0) with false by lia. rewrite avail_file.
  set (rest := skipn off (file s)) in *. unfold fine_line in Hg. destruct (first_line rest) as [l nl] eqn:El. destruct Hg as [Hz Hcr]. rewrite (gets_ok text rest (B - 1) l nl [] El). cbn [app].
  destruct (first_line_split rest l nl El) as (Es & Hn & _).
  destruct (B - 1 <=? length l) eqn:Ek.
  - (* a piece of the line *)
    assert (Lf : length (firstn (B - 1) l) = B - 1) by (rewrite firstn_length; lia). rewrite Lf. replace (B - 1 =? 0) with false by lia.
    assert (Hin : forall x, In x (firstn (B - 1) l) -> In x l) by (intros x Hx; rewrite <- (firstn_skipn (B - 1) l); apply in_or_app; left; exact Hx).
    rewrite upto_nul_id by (intro X; exact (Hz (Hin _ X))). rewrite Lf. replace (B - 1 =? 0) with false by lia. cbn [orb].
    replace (last (firstn (B - 1) l) 0 =? 10)%N with false by (symmetry; apply N.eqb_neq; intro X; apply Hn; rewrite <- X; apply Hin, last_In; intro Y; rewrite Y in Lf; cbn [length] in Lf; lia). cbn [negb].
    assert (Er : skipn (off + (B - 1)) (file s) = skipn (B - 1) l ++ (if nl then 10%N :: skipn (length l + 1) rest else [])).
    { rewrite <- skipn_skipn'. fold rest. rewrite Es at 1. rewrite skipn_app. replace (B - 1 - length l) with 0 by lia. reflexivity. }
    assert (El' : first_line (skipn (off + (B - 1)) (file s)) = (skipn (B - 1) l, nl)).
    { rewrite Er, first_line_app by (intro X; apply Hn; rewrite <- (firstn_skipn (B - 1) l); apply in_or_app; right; exact X). destruct nl; cbn [first_line fst snd N.eqb Pos.eqb]; rewrite app_nil_r; reflexivity. }
    rewrite IH.
    + rewrite El'. rewrite skipn_length. destruct nl.
      * f_equal; [f_equal|lia]. rewrite <- app_assoc. f_equal. destruct text; [|rewrite app_assoc, firstn_skipn; reflexivity]. rewrite app_assoc. f_equal.
        destruct (skipn (B - 1) l) as [|x t] eqn:Et.
        { assert (Hlen : length l = B - 1) by (apply (f_equal (@length N)) in Et; rewrite skipn_length in Et; cbn [length] in Et; lia). cbn [drop_cr last]. unfold drop_cr. cbn [last]. rewrite firstn_all2 by lia. rewrite app_nil_r.
          destruct (last l 0 =? 13)%N eqn:E13; [|reflexivity]. exfalso. apply Hcr; [reflexivity|reflexivity|lia|intro X; rewrite X in Hlen; cbn [length] in Hlen; lia|]. rewrite Hlen. apply Nat.mod_same. lia. }
        rewrite <- (firstn_skipn (B - 1) l) at 2. rewrite Et, drop_cr_app by discriminate. reflexivity.
      * rewrite <- app_assoc, firstn_skipn. f_equal. lia.
    + rewrite <- skipn_skipn', skipn_length. fold rest. assert (length rest > 0) by (rewrite Es, app_length; lia). lia.
    + unfold fine_line. rewrite El'. split; [intro X; apply Hz; rewrite <- (firstn_skipn (B - 1) l); apply in_or_app; right; exact X|]. intros Ht Hnl Hl Hne. specialize (Hcr Ht Hnl).
      assert (Hll : last l 0%N = 13%N) by (rewrite <- (firstn_skipn (B - 1) l), last_app_ne by exact Hne; exact Hl).
      specialize (Hcr Hll ltac:(intro X; rewrite X, skipn_nil in Hne; congruence)). rewrite skipn_length. intro X. apply Hcr. replace (length l) with (length l - (B - 1) + 1 * (B - 1)) by lia. rewrite Nat.mod_add by lia. exact X.
  - destruct nl.
    + destruct text; (etransitivity; [eapply (line_end _ acc l)|apply f_equal2; [reflexivity|lia]]); [intros x Hx; apply drop_cr_In; exact Hx|exact Hz|auto|exact Hz].
    + assert (Er : rest = l) by (rewrite Es at 1; apply app_nil_r). destruct (length l =? 0) eqn:E0.
      * destruct l as [|x l]; [|discriminate E0]. rewrite app_nil_r. reflexivity.
      * rewrite upto_nul_id by exact Hz. rewrite E0. cbn [orb]. replace (last l 0 =? 10)%N with false by (symmetry; apply N.eqb_neq; intro X; apply Hn; rewrite <- X; apply last_In; intro Y; rewrite Y in E0; discriminate E0). cbn [negb].
        assert (Er' : skipn (off + length l) (file s) = []) by (rewrite <- skipn_skipn'; fold rest; rewrite Er; apply skipn_all). rewrite IH.
        -- rewrite Er'. cbn [first_line]. rewrite !app_nil_r. cbn [length]. f_equal. lia.
        -- rewrite Er'. cbn [length]. assert (0 < length rest) by (rewrite Er; lia). lia.
        -- rewrite Er'. unfold fine_line. cbn [first_line]. split; [intros []|discriminate].
Qed.

Definition conv (h : handle) : fhandle := mkFh (h_stream h) (f_read (h_flags h)) (f_write (h_flags h)) (f_append (h_flags h)) (text_mode h) (h_off h).
Lemma read_one_ok f h s : inv MX s -> fine_fmt B f (conv h) (file s) -> read_one MX B f h s = f_read_one f (conv h) (file s).
Proof.
  intros Hi Hf. pose proof (file_len MX s Hi) as Hl. pose proof (file_max MX s Hi) as Hm. assert (Hlen : length (skipn (h_off h) (file s)) < S (s_size s)) by (rewrite skipn_length; lia).
  destruct f as [[|n]| | |]; cbn [read_one f_read_one fh_pos fh_text conv fine_fmt] in *; [lia| | | |].
  - rewrite s_read_ok. set (cs := chars (text_mode h) (skipn (h_off h) (file s))). assert (Hcs : length cs <= MX).
    { pose proof (chars_size (text_mode h) (skipn (h_off h) (file s))) as Hs. fold cs in Hs. pose proof (chars_le (text_mode h) (skipn (h_off h) (file s))) as X. fold cs in X. rewrite skipn_length in X. lia. }
    assert (Ef : firstn (Nat.min (S n) MX) cs = firstn (S n) cs). { destruct (Nat.le_gt_cases (S n) MX); [f_equal; lia|]. rewrite !firstn_all2 by lia. reflexivity. } rewrite Ef. rewrite map_length.
    destruct cs as [|c cs']; [reflexivity|]. cbn [firstn length]. replace (0 <? S (length (firstn n cs'))) with true by lia. reflexivity.
  - rewrite read_line_ok by assumption. set (rest := skipn (h_off h) (file s)) in *. destruct rest as [|c r] eqn:Er; [cbn [first_line app length]; rewrite Nat.add_0_r; reflexivity|]. destruct (first_line (c :: r)) as [l nl] eqn:El. cbn [app]. destruct nl; [reflexivity|].
    destruct (first_line_split _ _ _ El) as (A & _). rewrite app_nil_r in A. rewrite <- A. cbn [length]. replace (0 <? S (length r)) with true by lia. reflexivity.
  - rewrite read_line_ok by assumption. set (rest := skipn (h_off h) (file s)) in *. destruct rest as [|c r] eqn:Er; [cbn [first_line app length]; rewrite Nat.add_0_r; reflexivity|]. destruct (first_line (c :: r)) as [l nl] eqn:El. cbn [app]. destruct nl; [reflexivity|].
    destruct (first_line_split _ _ _ El) as (A & _). rewrite app_nil_r in A. rewrite <- A. cbn [length]. replace (0 <? S (length r)) with true by lia. reflexivity.
  - rewrite read_all_ok by (try assumption; lia). reflexivity.
Qed.
Lemma read_fmts_ok fs : forall h s, inv MX s -> fine_fmts B fs (conv h) (file s) -> read_fmts MX B fs h s = f_read_fmts fs (conv h) (file s).
Proof.
  induction fs as [|f fs IH]; intros h s Hi Hf; [reflexivity|]. cbn [read_fmts f_read_fmts fine_fmts] in *. destruct Hf as [H1 H2]. rewrite read_one_ok by assumption. destruct (f_read_one f (conv h) (file s)) as [[p|] q]; [|reflexivity].
  rewrite (IH (at_off q h) s Hi H2). reflexivity.
Qed.
End R.
