(** Proofs about rewrite_master_bank and compaction. *)
From Verif Require Import Base HistFileModel HistSpec HistFileProofs HistLines HistFindProofs HistDbModel
  HistDbSpec HistDbProofs HistCompactSpec.

(** ** dedup_by *)

Lemma dedup_snoc {A} (key : A -> bytes) l e :
  dedup_by key (l ++ [e]) = filter (fun x => negb (eqb_bytes (key e) (key x))) (dedup_by key l) ++ [e].
Proof.
  induction l as [|x l IH]; cbn [app dedup_by filter]; [reflexivity|].
  rewrite existsb_app. cbn [existsb]. rewrite orb_false_r.
  destruct (existsb (fun y => eqb_bytes (key y) (key x)) l) eqn:E; cbn [orb]; [exact IH|].
  cbn [filter]. destruct (eqb_bytes (key e) (key x)); cbn [negb app]; rewrite IH; reflexivity.
Qed.

Lemma existsb_map {A B} (f : A -> B) p l : existsb p (map f l) = existsb (fun x => p (f x)) l.
Proof. induction l as [|x l IH]; cbn [map existsb]; [|rewrite IH]; reflexivity. Qed.

Lemma existsb_ext {A} (p q : A -> bool) l : (forall x, p x = q x) -> existsb p l = existsb q l.
Proof. intro H. induction l as [|x l IH]; cbn [existsb]; [|rewrite H, IH]; reflexivity. Qed.

Lemma dedup_map {A B} (f : A -> B) k1 k2 l : (forall x, k2 (f x) = k1 x) ->
  dedup_by k2 (map f l) = map f (dedup_by k1 l).
Proof.
  intro H. induction l as [|x l IH]; cbn [map dedup_by]; [reflexivity|].
  rewrite existsb_map. rewrite (existsb_ext _ (fun y => eqb_bytes (k1 y) (k1 x))) by (intro; rewrite !H; reflexivity).
  destruct (existsb _ l); cbn [map]; rewrite IH; reflexivity.
Qed.

Lemma dedup_in {A} (key : A -> bytes) l x : In x (dedup_by key l) -> In x l.
Proof.
  induction l as [|y l IH]; cbn [dedup_by]; auto.
  destruct (existsb _ l); intro H; [right; auto|]. destruct H; [left|right]; auto.
Qed.

Lemma dedup_len {A} (key : A -> bytes) l : length (dedup_by key l) <= length l.
Proof.
  induction l as [|y l IH]; cbn [dedup_by length]; auto. destruct (existsb _ l); cbn [length]; lia.
Qed.

Lemma filter_id_in {A} (p : A -> bool) l : (forall x, In x l -> p x = true) -> filter p l = l.
Proof.
  induction l as [|x l IH]; intro H; cbn [filter]; auto.
  rewrite (H x) by (left; auto). rewrite IH; auto. intros; apply H; right; auto.
Qed.

(** ** The vector of kept lines *)

Definition somes {A} (v : list (option A)) : list A := flat_map (fun o => match o with Some k => [k] | None => [] end) v.

Lemma somes_app {A} (a b : list (option A)) : somes (a ++ b) = somes a ++ somes b.
Proof. apply flat_map_app. Qed.

Definition norm_ts (ts : option (nat * bytes)) : option (nat * bytes) :=
  match ts with Some (i, t) => (match t with [] => None | _ => Some (i, t) end) | None => None end.
Definition kp (e : entry) : keep := mkKeep (e_off e) (e_text e) (norm_ts (e_ts e)).

Definition seen_inv (vec : list (option keep)) (seen : list (bytes * nat)) : Prop :=
  (forall t i, seen_find t seen = Some i -> exists k, nth_error vec i = Some (Some k) /\ k_text k = t) /\
  (forall t, seen_find t seen = None -> forall k, In k (somes vec) -> k_text k <> t) /\
  (forall i j k k', nth_error vec i = Some (Some k) -> nth_error vec j = Some (Some k') -> k_text k = k_text k' -> i = j).

Lemma nth_set_same {A} (l : list A) i x : i < length l -> nth_error (set_nth l i x) i = Some x.
Proof. revert i; induction l as [|y l IH]; intros [|i] H; cbn in *; auto; try lia. apply IH. lia. Qed.
Lemma nth_set_other {A} (l : list A) i j x : i <> j -> nth_error (set_nth l i x) j = nth_error l j.
Proof. revert i j; induction l as [|y l IH]; intros [|i] [|j] H; cbn; auto; try lia. Qed.
Lemma set_nth_length {A} (l : list A) i x : length (set_nth l i x) = length l.
Proof. revert i; induction l as [|y l IH]; intros [|i]; cbn; auto. Qed.

Lemma somes_nth {A} (v : list (option A)) k : In k (somes v) <-> exists i, nth_error v i = Some (Some k).
Proof.
  unfold somes. rewrite in_flat_map. split.
  - intros (o & Ho & Hk). destruct o as [k'|]; [|destruct Hk]. destruct Hk as [->|[]].
    apply In_nth_error in Ho as [i Hi]. eauto.
  - intros [i Hi]. exists (Some k). split; [eapply nth_error_In; eauto|left; auto].
Qed.

(** Nulling the slot of the (only) entry with text [t] filters that text out. *)
Lemma somes_set_none vec i k0 : nth_error vec i = Some (Some k0) ->
  (forall j k, nth_error vec j = Some (Some k) -> k_text k = k_text k0 -> j = i) ->
  somes (set_nth vec i None) = filter (fun k => negb (eqb_bytes (k_text k0) (k_text k))) (somes vec).
Proof.
  revert i; induction vec as [|o vec IH]; intros i Hi Hu; [destruct i; discriminate|].
  destruct i as [|i].
  - cbn in Hi. injection Hi as ->. cbn [set_nth somes flat_map app filter]. rewrite eqb_bytes_refl. cbn [negb].
    fold (somes vec). symmetry. apply filter_id_in.
    intros k Hk. apply negb_true_iff, eqb_bytes_neq. intro E. apply somes_nth in Hk as [j Hj].
    specialize (Hu (S j) k Hj (eq_sym E)). discriminate.
  - cbn [set_nth somes flat_map]. fold (somes vec). fold (somes (set_nth vec i None)).
    rewrite (IH i Hi).
    2:{ intros j k Hj E. specialize (Hu (S j) k Hj E). lia. }
    destruct o as [k|]; cbn [app filter]; auto.
    assert (E : eqb_bytes (k_text k0) (k_text k) = false).
    { apply eqb_bytes_neq. intro E. specialize (Hu 0 k eq_refl (eq_sym E)). discriminate. }
    rewrite E. reflexivity.
Qed.

Lemma keep_uniq_inv es : forall vec seen dups P, seen_inv vec seen ->
  somes vec = dedup_by k_text (map kp P) ->
  let '(vec', seen', _) := fold_left (keep_line true) es (vec, seen, dups) in
  somes vec' = dedup_by k_text (map kp (P ++ es)) /\ length vec' = length vec + length es.
Proof.
  induction es as [|e es IH]; intros vec seen dups P Hinv Hs; cbn [fold_left].
  - rewrite app_nil_r. auto.
  - replace (P ++ e :: es) with ((P ++ [e]) ++ es) by (rewrite <- app_assoc; reflexivity).
    destruct Hinv as (I1 & I2 & I3).
    unfold keep_line at 2. fold (norm_ts (e_ts e)). fold (kp e).
    destruct (seen_find (e_text e) seen) as [i|] eqn:Ef.
    + destruct (I1 _ _ Ef) as (k0 & Hk0 & Et).
      assert (Hi : i < length vec) by (apply nth_error_Some; congruence).
      specialize (IH (set_nth vec i None ++ [Some (kp e)]) ((e_text e, length vec) :: seen) (S dups) (P ++ [e])).
      destruct (fold_left (keep_line true) es (set_nth vec i None ++ [Some (kp e)], (e_text e, length vec) :: seen, S dups))
        as [[vec' seen'] d'].
      assert (Hlen : length (set_nth vec i None ++ [Some (kp e)]) = S (length vec)).
      { rewrite app_length, set_nth_length. cbn. lia. }
      rewrite Hlen in IH. cbn [length]. replace (length vec + S (length es)) with (S (length vec) + length es) by lia.
      assert (Hnth : forall j k, nth_error (set_nth vec i None ++ [Some (kp e)]) j = Some (Some k) ->
                (j = length vec /\ k = kp e) \/ (j <> i /\ nth_error vec j = Some (Some k))).
      { intros j k Hj. destruct (Nat.lt_ge_cases j (length vec)) as [Hlt|Hge].
        - right. rewrite nth_error_app1 in Hj by (rewrite set_nth_length; auto).
          destruct (Nat.eq_dec i j) as [->|Hn]; [rewrite nth_set_same in Hj by auto; discriminate|].
          rewrite nth_set_other in Hj by auto. auto.
        - left. rewrite nth_error_app2 in Hj by (rewrite set_nth_length; auto). rewrite set_nth_length in Hj.
          destruct (j - length vec) as [|q] eqn:Eq; [|destruct q; discriminate].
          cbn in Hj. injection Hj as <-. split; auto. lia. }
      apply IH.
      * split; [|split].
        -- intros t j Hf. cbn [seen_find] in Hf. destruct (eqb_bytes t (e_text e)) eqn:Eq.
           ++ injection Hf as <-. apply eqb_bytes_eq in Eq. exists (kp e). split; [|auto].
              rewrite nth_error_app2 by (rewrite set_nth_length; auto). rewrite set_nth_length, Nat.sub_diag. reflexivity.
           ++ destruct (I1 _ _ Hf) as (k & Hk & Ek). exists k. split; auto.
              assert (j < length vec) by (apply nth_error_Some; congruence).
              rewrite nth_error_app1 by (rewrite set_nth_length; auto).
              rewrite nth_set_other; auto. intros ->. rewrite Hk0 in Hk. injection Hk as <-.
              apply eqb_bytes_neq in Eq. congruence.
        -- intros t Hf k Hk. cbn [seen_find] in Hf. destruct (eqb_bytes t (e_text e)) eqn:Eq; [discriminate|].
           apply eqb_bytes_neq in Eq. apply somes_nth in Hk as [j Hj]. apply Hnth in Hj as [[_ ->]|[_ Hj]].
           ++ cbn. congruence.
           ++ apply I2 with (t := t); auto. apply somes_nth. eauto.
        -- intros j1 j2 k1 k2 H1 H2 E. apply Hnth in H1 as [[-> ->]|[N1 H1]]; apply Hnth in H2 as [[-> ->]|[N2 H2]]; auto.
           ++ exfalso. apply N2. eapply I3; eauto. cbn in E. congruence.
           ++ exfalso. apply N1. eapply I3; eauto. cbn in E. congruence.
           ++ eapply I3; eauto.
      * rewrite somes_app, map_app. cbn [map somes flat_map app]. rewrite dedup_snoc, <- Hs.
        f_equal. rewrite (somes_set_none vec i k0 Hk0).
        -- rewrite Et. reflexivity.
        -- intros j k Hj E. eapply I3; eauto.
    + specialize (IH (vec ++ [Some (kp e)]) ((e_text e, length vec) :: seen) dups (P ++ [e])).
      destruct (fold_left (keep_line true) es (vec ++ [Some (kp e)], (e_text e, length vec) :: seen, dups))
        as [[vec' seen'] d'].
      rewrite app_length in IH. cbn [length] in *. replace (length vec + S (length es)) with (length vec + 1 + length es) by lia.
      assert (Hnth : forall j k, nth_error (vec ++ [Some (kp e)]) j = Some (Some k) ->
                (j = length vec /\ k = kp e) \/ nth_error vec j = Some (Some k)).
      { intros j k Hj. destruct (Nat.lt_ge_cases j (length vec)) as [Hlt|Hge].
        - right. rewrite nth_error_app1 in Hj; auto.
        - left. rewrite nth_error_app2 in Hj by auto.
          destruct (j - length vec) as [|q] eqn:Eq; [|destruct q; discriminate].
          cbn in Hj. injection Hj as <-. split; auto. lia. }
      apply IH.
      * split; [|split].
        -- intros t j Hf. cbn [seen_find] in Hf. destruct (eqb_bytes t (e_text e)) eqn:Eq.
           ++ injection Hf as <-. apply eqb_bytes_eq in Eq. exists (kp e). split; [|auto].
              rewrite nth_error_app2, Nat.sub_diag by auto. reflexivity.
           ++ destruct (I1 _ _ Hf) as (k & Hk & Ek). exists k. split; auto.
              assert (j < length vec) by (apply nth_error_Some; congruence).
              rewrite nth_error_app1 by auto. auto.
        -- intros t Hf k Hk. cbn [seen_find] in Hf. destruct (eqb_bytes t (e_text e)) eqn:Eq; [discriminate|].
           apply eqb_bytes_neq in Eq. apply somes_nth in Hk as [j Hj]. apply Hnth in Hj as [[_ ->]|Hj].
           ++ cbn. congruence.
           ++ apply I2 with (t := t); auto. apply somes_nth. eauto.
        -- intros j1 j2 k1 k2 H1 H2 E. apply Hnth in H1 as [[-> ->]|H1]; apply Hnth in H2 as [[-> ->]|H2]; auto.
           ++ exfalso. apply (I2 _ Ef k2); [apply somes_nth; eauto|]. cbn in E. congruence.
           ++ exfalso. apply (I2 _ Ef k1); [apply somes_nth; eauto|]. cbn in E. congruence.
           ++ eapply I3; eauto.
      * rewrite somes_app, map_app. cbn [map somes flat_map app]. rewrite dedup_snoc, <- Hs.
        f_equal. symmetry. apply filter_id_in. intros k Hk. apply negb_true_iff, eqb_bytes_neq.
        intro E. cbn in E. exact (I2 _ Ef k Hk (eq_sym E)).
Qed.

Lemma keep_all_inv es : forall vec seen dups,
  let '(vec', seen', _) := fold_left (keep_line false) es (vec, seen, dups) in
  vec' = vec ++ map (fun e => Some (kp e)) es.
Proof.
  induction es as [|e es IH]; intros vec seen dups; cbn [fold_left map]; [rewrite app_nil_r; reflexivity|].
  unfold keep_line at 2. fold (norm_ts (e_ts e)). fold (kp e).
  specialize (IH (vec ++ [Some (kp e)]) seen dups).
  destruct (fold_left (keep_line false) es (vec ++ [Some (kp e)], seen, dups)) as [[v s] d].
  rewrite IH, <- app_assoc. reflexivity.
Qed.

(** The kept vector: its length is the number of lines read, its non-null slots are the entries to keep. *)
Lemma keep_fold uniq es :
  let '(vec, _, _) := fold_left (keep_line uniq) es ([], [], 0) in
  length vec = length es /\
  somes vec = (if uniq then dedup_by k_text (map kp es) else map kp es).
Proof.
  destruct uniq.
  - pose proof (keep_uniq_inv es [] [] 0 []) as H.
    destruct (fold_left (keep_line true) es ([], [], 0)) as [[v s] d].
    destruct H as [H1 H2]; auto.
    split; [|split]; [intros t i E; discriminate|intros t _ k []|intros i j k k' E; destruct i; discriminate].
  - pose proof (keep_all_inv es [] [] 0) as H.
    destruct (fold_left (keep_line false) es ([], [], 0)) as [[v s] d]. subst v. cbn [app].
    rewrite map_length. split; auto. clear. induction es; cbn in *; auto. f_equal; auto.
Qed.

(** ** The limit *)

Lemma skipn_nth {A} (l : list A) i d : i < length l -> skipn i l = nth i l d :: skipn (S i) l.
Proof. revert i; induction l as [|x l IH]; intros [|i] H; cbn in *; try lia; auto. apply IH. lia. Qed.

Lemma limit_loop_some vec start : forall limit s, start <= length vec ->
  limit_loop vec start limit = Some s ->
  s <= start /\ length (somes (skipn s vec)) = limit + length (somes (skipn start vec)).
Proof.
  induction start as [|st IH]; intros limit s Hs H; destruct limit as [|l]; cbn [limit_loop] in H;
    try discriminate; try (injection H as <-; auto; fail).
  apply IH in H as [H1 H2]; [|lia]. split; [lia|]. rewrite H2.
  rewrite (skipn_nth vec st None) by lia. cbn [somes flat_map].
  fold (somes (skipn (S st) vec)). destruct (nth st vec None); cbn [app length]; lia.
Qed.

Lemma limit_loop_none vec start : forall limit, start <= length vec ->
  limit_loop vec start limit = None -> length (somes vec) < limit + length (somes (skipn start vec)).
Proof.
  induction start as [|st IH]; intros limit Hs H; destruct limit as [|l]; cbn [limit_loop] in H; try discriminate.
  - cbn [skipn]. lia.
  - apply IH in H; [|lia]. rewrite (skipn_nth vec st None) in H by lia. cbn [somes flat_map] in H.
    fold (somes (skipn (S st) vec)) in H. fold (somes vec) in H.
    destruct (nth st vec None); cbn [app length] in H; lia.
Qed.

Lemma somes_skipn_len {A} (v : list (option A)) s : length (somes (skipn s v)) <= length (somes v).
Proof. rewrite <- (firstn_skipn s v) at 2. rewrite somes_app, app_length. lia. Qed.

Lemma somes_len {A} (v : list (option A)) : length (somes v) <= length v.
Proof.
  unfold somes. induction v as [|o v IH]; cbn [flat_map length]; auto.
  rewrite app_length. destruct o; cbn [length]; lia.
Qed.

Lemma last_n_all {A} n (l : list A) : length l <= n -> last_n n l = l.
Proof. intro H. unfold last_n. replace (length l - n) with 0 by lia. reflexivity. Qed.

Lemma from_start_spec vec limit :
  from_start vec (limit_start vec limit) =
  if (length (somes vec) <? limit) && (limit <? length vec) then []
  else match limit with O => somes vec | _ => last_n limit (somes vec) end.
Proof.
  unfold limit_start. pose proof (somes_len vec) as Hl.
  destruct (Nat.ltb_spec 0 limit) as [H0|H0], (Nat.ltb_spec limit (length vec)) as [H1|H1]; cbn [andb].
  - destruct (limit_loop vec (length vec) limit) as [s|] eqn:E.
    + apply limit_loop_some in E as [E1 E2]; auto. rewrite skipn_all in E2. cbn [somes flat_map length] in E2.
      rewrite Nat.add_0_r in E2. pose proof (somes_skipn_len vec s).
      destruct (Nat.ltb_spec (length (somes vec)) limit); [lia|]. cbn [andb].
      destruct limit; [lia|]. unfold last_n.
      rewrite <- (firstn_skipn s vec) at 3. rewrite somes_app.
      rewrite <- (firstn_skipn s vec) at 2. rewrite somes_app, app_length.
      rewrite skipn_app_exact; [reflexivity|]. rewrite E2. lia.
    + apply limit_loop_none in E; auto. rewrite skipn_all in E. cbn [somes flat_map length] in E.
      destruct (Nat.ltb_spec (length (somes vec)) limit); [|lia]. reflexivity.
  - rewrite andb_false_r. cbn [from_start skipn]. fold (somes vec). destruct limit; auto. rewrite last_n_all; auto. lia.
  - destruct (Nat.ltb_spec (length (somes vec)) limit); [lia|]. destruct limit; [|lia]. reflexivity.
  - rewrite andb_false_r. cbn [from_start skipn]. fold (somes vec). destruct limit; [|lia]. reflexivity.
Qed.

(** ** Writing the kept lines *)

Definition ts_len (k : keep) : nat := match k_ts k with Some (_, t) => 8 + length t | None => 0 end.
Definition k_off (o : nat) (k : keep) : nat := o + ts_len k.
Definition k_end (o : nat) (k : keep) : nat := o + ts_len k + S (length (k_text k)).

(** Lines, remap and visible entries of the kept lines written from position [o]. *)
Fixpoint k_lines (o : nat) (ks : list keep) : list (nat * bytes) :=
  match ks with
  | [] => []
  | k :: ks' =>
      (match k_ts k with Some (_, t) => [(o, TIME ++ t)] | None => [] end) ++ (k_off o k, k_text k) :: k_lines (k_end o k) ks'
  end.
Fixpoint k_remap (o : nat) (ks : list keep) : list (nat * nat) :=
  match ks with
  | [] => []
  | k :: ks' =>
      (match k_ts k with Some (old, _) => [(old, o)] | None => [] end) ++ (k_old k, k_off o k) :: k_remap (k_end o k) ks'
  end.
Fixpoint k_vis (o : nat) (ks : list keep) : list ventry :=
  match ks with
  | [] => []
  | k :: ks' =>
      mkV (k_off o k) (k_text k) (match k_ts k with Some (_, t) => Some (o, t) | None => None end) :: k_vis (k_end o k) ks'
  end.

Definition k_good (k : keep) : Prop :=
  k_text k <> [] /\ no_brk (k_text k) = true /\ bar_line (k_text k) = false /\
  match k_ts k with Some (_, t) => no_brk t = true /\ t <> [] | None => True end.

Lemma write_kept_ok ks : Forall k_good ks -> forall f, terminated f ->
  let '(f', remap) := write_kept f ks in
  terminated f' /\ lines_of f' = lines_of f ++ k_lines (length f) ks /\ remap = k_remap (length f) ks /\
  exists x, f' = f ++ x.
Proof.
  induction 1 as [|k ks (G1 & G2 & G3 & G4) _ IH]; intros f Hf.
  - cbn. rewrite app_nil_r. repeat split; auto. exists []. rewrite app_nil_r. reflexivity.
  - cbn [write_kept k_lines k_remap]. unfold k_end, k_off, ts_len. destruct (k_ts k) as [[old t]|].
    + unfold wl_add. cbn [fst snd]. set (f1 := f ++ (time_prefix ++ t) ++ [LF]).
      assert (H1 : terminated f1) by apply terminated_add.
      assert (L1 : length f1 = length f + (8 + length t)).
      { unfold f1. rewrite !app_length. change (length time_prefix) with 7. cbn [length]. lia. }
      set (f2 := f1 ++ k_text k ++ [LF]).
      assert (H2 : terminated f2) by apply terminated_add.
      assert (L2 : length f2 = length f + (8 + length t) + S (length (k_text k))).
      { unfold f2. rewrite !app_length, L1. cbn [length]. lia. }
      specialize (IH f2 H2). destruct (write_kept f2 ks) as [f3 m3].
      destruct IH as (A & B & C & x & D). split; [exact A|]. split; [|split].
      * rewrite B. unfold f2 at 1. rewrite lines_of_add by auto. unfold f1 at 1.
        rewrite lines_of_add; auto.
        -- rewrite <- !app_assoc. cbn [app]. rewrite L1, L2. reflexivity.
        -- discriminate.
        -- unfold no_brk. rewrite forallb_app. apply andb_true_iff. split; [reflexivity|]. apply G4.
      * rewrite C, L1, L2. reflexivity.
      * exists (((time_prefix ++ t) ++ [LF]) ++ (k_text k ++ [LF]) ++ x). rewrite D. unfold f2, f1. rewrite <- !app_assoc. reflexivity.
    + unfold wl_add. cbn [fst snd]. rewrite !Nat.add_0_r. set (f2 := f ++ k_text k ++ [LF]).
      assert (H2 : terminated f2) by apply terminated_add.
      assert (L2 : length f2 = length f + S (length (k_text k))).
      { unfold f2. rewrite !app_length. cbn [length]. lia. }
      specialize (IH f2 H2). destruct (write_kept f2 ks) as [f3 m3].
      destruct IH as (A & B & C & x & D). split; [exact A|]. split; [|split].
      * rewrite B. unfold f2 at 1. rewrite lines_of_add by auto. rewrite <- app_assoc. cbn [app]. rewrite L2. reflexivity.
      * rewrite C, L2. reflexivity.
      * exists ((k_text k ++ [LF]) ++ x). rewrite D. unfold f2. rewrite <- !app_assoc. reflexivity.
Qed.

Lemma time_line_app t : time_line (TIME ++ t) = true.
Proof. apply prefixb_app. Qed.

Lemma k_lines_visible ks : Forall k_good ks -> forall o,
  visible_from none_removed None (k_lines o ks) = k_vis o ks.
Proof.
  induction 1 as [|k ks (G1 & G2 & G3 & G4) _ IH]; intro o; [reflexivity|].
  cbn [k_lines k_vis]. pose proof (bar_false_time _ G3) as Hb.
  destruct (k_ts k) as [[old t]|]; cbn [app visible_from].
  - rewrite time_line_app, Hb, G3. cbn [none_removed]. rewrite IH. reflexivity.
  - rewrite Hb, G3. cbn [none_removed]. rewrite IH. reflexivity.
Qed.

(** With removals: the texts are those of the kept lines not removed. *)
Lemma k_lines_visible_rm rm ks : Forall k_good ks -> forall o ts,
  map off_text (visible_from rm ts (k_lines o ks)) =
  map off_text (filter (fun e => negb (rm (v_off e))) (k_vis o ks)).
Proof.
  induction 1 as [|k ks (G1 & G2 & G3 & G4) _ IH]; intros o ts; [reflexivity|].
  cbn [k_lines k_vis]. pose proof (bar_false_time _ G3) as Hb.
  destruct (k_ts k) as [[old t]|]; cbn [app visible_from filter v_off].
  - rewrite time_line_app, Hb, G3. destruct (rm (k_off o k)); cbn [negb map]; rewrite IH; reflexivity.
  - rewrite Hb, G3. destruct (rm (k_off o k)); cbn [negb map]; rewrite IH; reflexivity.
Qed.

Lemma k_vis_in e ks : forall o, In e (k_vis o ks) -> o <= v_off e.
Proof.
  induction ks as [|k ks IH]; intros o H; cbn [k_vis] in H; [destruct H|].
  destruct H as [<-|H]; cbn [v_off]; [unfold k_off; lia|]. apply IH in H. unfold k_end in H. lia.
Qed.

(** ** The entries read have well-formed text and time stamps *)

Lemma visible_from_ts rm ts ls e : In e (visible_from rm ts ls) ->
  v_ts e = ts \/ v_ts e = None \/ exists o t, In (o, t) ls /\ time_line t = true /\ v_ts e = Some (o, skipn 7 t).
Proof.
  revert ts; induction ls as [|[o t] ls IH]; intros ts H; cbn [visible_from] in H; [destruct H|].
  destruct (time_line t) eqn:Et; [|destruct (bar_line t); [|destruct (rm o)]].
  - apply IH in H as [H|[H|(o' & t' & A & B & C)]]; auto.
    + right. right. exists o, t. repeat split; auto. left; auto.
    + right. right. exists o', t'. repeat split; auto. right; auto.
  - apply IH in H as [H|[H|(o' & t' & A & B & C)]]; auto. right. right. exists o', t'. repeat split; auto. right; auto.
  - apply IH in H as [H|[H|(o' & t' & A & B & C)]]; auto. right. right. exists o', t'. repeat split; auto. right; auto.
  - destruct H as [<-|H]; [left; auto|].
    apply IH in H as [H|[H|(o' & t' & A & B & C)]]; auto. right. right. exists o', t'. repeat split; auto. right; auto.
Qed.

Lemma no_brk_skipn n t : no_brk t = true -> no_brk (skipn n t) = true.
Proof.
  revert n; induction t as [|c t IH]; intros [|n] H; cbn [skipn]; auto.
  cbn [no_brk forallb] in H. apply andb_true_iff in H as [_ H]. apply IH; auto.
Qed.

Lemma line_props f o t : In (o, t) (lines_of f) -> t <> [] /\ no_brk t = true.
Proof. intro H. apply in_line_at in H as (pre & b & post & _ & _ & _ & A & B & _). auto. Qed.

Definition vk (e : ventry) : keep := mkKeep (v_off e) (v_text e) (norm_ts (v_ts e)).

Lemma vk_good f e : In e (visible none_removed f) -> k_good (vk e).
Proof.
  intro H. pose proof (visible_from_ts _ _ _ _ H) as Hts. apply visible_from_in in H as (Hin & Hb & _).
  apply line_props in Hin as [H1 H2]. split; [exact H1|]. split; [exact H2|]. split; [exact Hb|]. cbn [vk k_ts].
  destruct Hts as [->|[->|(o & t & Hin & _ & ->)]]; cbn [norm_ts]; auto.
  destruct (skipn 7 t) as [|c r] eqn:E; auto. rewrite <- E. split; [|rewrite E; discriminate].
  apply no_brk_skipn. eapply line_props; eauto.
Qed.

Lemma vk_kp e : vk (to_v e) = kp e.
Proof. reflexivity. Qed.

(** ** Tags *)

Lemma dec_len_u32 n : (n < 4294967296)%N -> length (dec n) <= 10.
Proof. intro H. apply dec_len; [|lia]. change (10 ^ N.of_nat 10)%N with 10000000000%N. lia. Qed.

Definition tag_ranges (t : tagsrc) : Prop :=
  (tg_time t < 4294967296 /\ tg_tick t < 4294967296 /\ tg_pid t < 4294967296 /\ tg_seq t < 4294967296)%N.

Lemma tag_text_good t : tag_ranges t -> good_tag (tag_text t).
Proof.
  intros (H1 & H2 & H3 & H4). apply dec_len_u32 in H1, H2, H3, H4. unfold good_tag, tag_text. split; [|split].
  - apply prefixb_app.
  - unfold no_brk. rewrite !forallb_app. fold no_brk.
    change (forallb (fun c => negb (brk c)) (dec (tg_time t))) with (no_brk (dec (tg_time t))).
    change (forallb (fun c => negb (brk c)) (dec (tg_tick t))) with (no_brk (dec (tg_tick t))).
    change (forallb (fun c => negb (brk c)) (dec (tg_pid t))) with (no_brk (dec (tg_pid t))).
    change (forallb (fun c => negb (brk c)) (dec (tg_seq t))) with (no_brk (dec (tg_seq t))).
    rewrite !dec_nobrk. reflexivity.
  - rewrite !app_length. change (length ctag_prefix) with 6. change (length (lit "_")) with 1. lia.
Qed.

Lemma dec_sep_inj a b x y : dec a ++ "_"%char :: x = dec b ++ "_"%char :: y -> a = b /\ x = y.
Proof.
  assert (H : forall l l' x y, forallb is_digit l = true -> forallb is_digit l' = true ->
             l ++ "_"%char :: x = l' ++ "_"%char :: y -> l = l' /\ x = y).
  { induction l as [|c l IH]; intros [|c' l'] u v Hl Hl' E; cbn [app forallb] in *.
    - injection E as E. auto.
    - injection E as Ec E. subst c'. discriminate.
    - injection E as Ec E. subst c. discriminate.
    - injection E as Ec E. apply andb_true_iff in Hl as [_ Hl], Hl' as [_ Hl'].
      destruct (IH _ _ _ Hl Hl' E) as [-> ->]. subst. auto. }
  intro E. apply H in E as [E1 E2]; try apply dec_digits. apply dec_inj in E1. auto.
Qed.

Lemma tag_text_inj a b : tag_text a = tag_text b -> a = b.
Proof.
  unfold tag_text. intro E. apply app_inv_head in E. cbn [lit list_ascii_of_string app] in E.
  apply dec_sep_inj in E as [E1 E]. apply dec_sep_inj in E as [E2 E]. apply dec_sep_inj in E as [E3 E].
  apply dec_inj in E. destruct a, b; cbn in *; subst; reflexivity.
Qed.

(** ** rewrite_master_bank *)

Definition kept (limit : nat) (uniq : bool) (es : list ventry) : list ventry :=
  if (length (uniq_entries uniq es) <? limit) && (limit <? length es) then [] else spec_compact limit uniq es.

Lemma last_n_map {A B} (f : A -> B) n l : last_n n (map f l) = map f (last_n n l).
Proof. unfold last_n. rewrite map_length. apply skipn_map. Qed.

Lemma rewrite_ok G f tag limit uniq : terminated f -> lines_fit (length G) (lines_of f) -> 0 < length G ->
  tag_ranges tag ->
  exists rw, rewrite_master_bank G [] f tag limit uniq = Some rw /\
    let ks := map vk (kept limit uniq (visible none_removed f)) in
    let o0 := S (length (tag_text tag)) in
    (exists rest, rw_file rw = tag_text tag ++ LF :: rest) /\
    terminated (rw_file rw) /\
    lines_of (rw_file rw) = (0, tag_text tag) :: k_lines o0 ks /\
    visible none_removed (rw_file rw) = k_vis o0 ks /\
    rw_remap rw = k_remap o0 ks /\
    rw_kept rw = length (visible none_removed f) /\ Forall k_good ks.
Proof.
  intros Ht Hf HG Hr. pose proof (tag_text_good _ Hr) as Hg.
  destruct (read_bank_ok G [] f Ht Hf HG) as (es & d & E & Hes & _). rewrite visible_none_removed in Hes.
  unfold rewrite_master_bank. rewrite E.
  pose proof (keep_fold uniq es) as HK. destruct (fold_left (keep_line uniq) es ([], [], 0)) as [[vec seen] dups].
  destruct HK as [HK1 HK2]. 
  assert (Hmk : map kp es = map vk (visible none_removed f)).
  { rewrite <- Hes, map_map. apply map_ext. intro. symmetry. apply vk_kp. }
  assert (HS : somes vec = map vk (uniq_entries uniq (visible none_removed f))).
  { rewrite HK2, Hmk. unfold uniq_entries. destruct uniq; auto. apply dedup_map. reflexivity. }
  assert (Hlen : length vec = length (visible none_removed f)) by (rewrite HK1, <- Hes, map_length; reflexivity).
  assert (Hks : from_start vec (limit_start vec limit) = map vk (kept limit uniq (visible none_removed f))).
  { rewrite from_start_spec, HS, Hlen, map_length. unfold kept.
    destruct (_ && _); [reflexivity|]. unfold spec_compact. destruct limit; auto. apply last_n_map. }
  rewrite Hks. clear Hks.
  assert (Hgood : Forall k_good (map vk (kept limit uniq (visible none_removed f)))).
  { apply Forall_forall. intros k Hk. apply in_map_iff in Hk as (e & <- & He). apply (vk_good f).
    unfold kept in He. destruct (_ && _); [destruct He|].
    assert (Hu : In e (uniq_entries uniq (visible none_removed f)) -> In e (visible none_removed f)).
    { unfold uniq_entries. destruct uniq; auto. apply dedup_in. }
    apply Hu. unfold spec_compact in He. destruct limit; auto.
    unfold last_n in He. rewrite <- (firstn_skipn (length (uniq_entries uniq (visible none_removed f)) - S limit)).
    apply in_or_app. auto. }
  clear Hmk HS HK2.
  set (ks := map vk (kept limit uniq (visible none_removed f))) in *.
  pose proof (write_kept_ok ks Hgood (fst (wl_add [] (tag_text tag)))) as HW.
  destruct (write_kept (fst (wl_add [] (tag_text tag))) ks) as [f1 remap]. cbn [wl_add fst app] in HW.
  destruct HW as (W1 & W2 & W3 & x & W4); [apply terminated_snoc; reflexivity|].
  assert (L0 : length (tag_text tag ++ [LF]) = S (length (tag_text tag))) by (rewrite app_length; cbn; lia).
  rewrite L0 in *.
  eexists. split; [reflexivity|]. cbv zeta. cbn [rw_file rw_remap rw_kept].
  assert (HL : lines_of f1 = (0, tag_text tag) :: k_lines (S (length (tag_text tag))) ks).
  { rewrite W2. rewrite (lines_tagged (tag_text tag) []) by auto. reflexivity. }
  split; [|split; [|split; [|split; [|split; [|split]]]]]; auto.
  - exists x. rewrite W4, <- app_assoc. reflexivity.
  - unfold visible. rewrite HL. cbn [visible_from]. destruct (good_tag_bar _ Hg) as [-> ->].
    apply k_lines_visible; auto.
Qed.

Lemma kept_ok limit uniq es : limit_ok limit uniq es -> kept limit uniq es = spec_compact limit uniq es.
Proof.
  intro H. unfold kept. destruct (Nat.ltb_spec (length (uniq_entries uniq es)) limit) as [H1|H1]; [|reflexivity].
  destruct (Nat.ltb_spec limit (length es)) as [H2|H2]; [|reflexivity]. cbn [andb]. exfalso.
  unfold uniq_entries in H1. destruct H as [->|[->|[H|H]]]; try lia. destruct uniq; lia.
Qed.

Lemma kept_incl limit uniq es e : In e (kept limit uniq es) -> In e es.
Proof.
  unfold kept. destruct (_ && _); [intros []|].
  assert (Hu : In e (uniq_entries uniq es) -> In e es) by (unfold uniq_entries; destruct uniq; auto; apply dedup_in).
  unfold spec_compact. destruct limit; auto. intro H. apply Hu. unfold last_n in H.
  rewrite <- (firstn_skipn (length (uniq_entries uniq es) - S limit)). apply in_or_app. auto.
Qed.

(** What is shown of the rewritten entries. *)
Lemma k_vis_shown es : forall o, map shown_as (k_vis o (map vk es)) = map shown_as es.
Proof.
  induction es as [|e es IH]; intro o; cbn [map k_vis]; [reflexivity|]. rewrite IH. f_equal.
  unfold shown_as, stamp_of. cbn [v_text v_ts vk k_text k_ts]. f_equal.
  destruct (v_ts e) as [[i t]|]; cbn [norm_ts]; [destruct t|]; reflexivity.
Qed.

Lemma k_vis_text es : forall o, map v_text (k_vis o (map vk es)) = map v_text es.
Proof. induction es as [|e es IH]; intro o; cbn [map k_vis]; [|rewrite IH]; reflexivity. Qed.

(** *** Old offsets ascend through time stamps and lines. *)

Fixpoint kasc (lo : nat) (ks : list keep) : Prop :=
  match ks with
  | [] => True
  | k :: ks' => (match k_ts k with Some (o, _) => lo <= o < k_old k | None => lo <= k_old k end) /\ kasc (S (k_old k)) ks'
  end.

Lemma kasc_mono lo lo' ks : lo' <= lo -> kasc lo ks -> kasc lo' ks.
Proof. intros H. destruct ks as [|k ks]; cbn [kasc]; auto. destruct (k_ts k) as [[o t]|]; intros []; split; auto; lia. Qed.

Lemma kasc_tail lo k ks : kasc lo (k :: ks) -> kasc lo ks.
Proof.
  cbn [kasc]. intros [H1 H2]. eapply kasc_mono; [|exact H2]. destruct (k_ts k) as [[o t]|]; lia.
Qed.

Lemma kasc_swap lo k ks ks' : (forall l, kasc l ks -> kasc l ks') -> kasc lo (k :: ks) -> kasc lo (k :: ks').
Proof. intros H [H1 H2]. split; auto. Qed.

Lemma kasc_dedup es : forall lo, kasc lo (map vk es) -> kasc lo (map vk (dedup_by v_text es)).
Proof.
  induction es as [|e es IH]; intros lo H; cbn [dedup_by]; auto.
  destruct (existsb _ es).
  - apply IH. eapply kasc_tail; exact H.
  - cbn [map] in *. eapply kasc_swap; [|exact H]. auto.
Qed.

Lemma kasc_skipn n ks : forall lo, kasc lo ks -> kasc lo (skipn n ks).
Proof.
  revert ks; induction n as [|n IH]; intros ks lo H; cbn [skipn]; auto.
  destruct ks as [|k ks]; auto. apply IH. eapply kasc_tail; eauto.
Qed.

Lemma kasc_kept limit uniq es lo : kasc lo (map vk es) -> kasc lo (map vk (kept limit uniq es)).
Proof.
  intro H. unfold kept. destruct (_ && _); [exact I|].
  assert (Hu : kasc lo (map vk (uniq_entries uniq es))).
  { unfold uniq_entries. destruct uniq; auto. apply kasc_dedup; auto. }
  unfold spec_compact. destruct limit; auto. unfold last_n. rewrite <- skipn_map. apply kasc_skipn; auto.
Qed.

Lemma vis_kasc ls : ascending ls -> forall lo ts, (forall l, In l ls -> lo <= fst l) ->
  match ts with Some (o, _) => lo <= o /\ (forall l, In l ls -> o < fst l) | None => True end ->
  kasc lo (map vk (visible_from none_removed ts ls)).
Proof.
  induction 1 as [|[o t] ls Hlt Ha IH]; intros lo ts Hlo Hts; cbn [visible_from]; [exact I|].
  assert (Hlo' : forall l, In l ls -> lo <= fst l) by (intros; apply Hlo; right; auto).
  assert (Ho : lo <= o) by (apply (Hlo (o, t)); left; auto).
  destruct (time_line t); [|destruct (bar_line t)].
  - apply IH; auto.
  - apply IH; auto.
  - cbn [none_removed map kasc vk k_ts k_old v_off v_ts]. split.
    + destruct ts as [[i x]|]; cbn [norm_ts]; [|lia]. destruct x; [lia|]. destruct Hts as [H1 H2].
      split; auto. apply (H2 (o, t)). left; auto.
    + apply IH; auto.
Qed.

Lemma remap_bounds ks : forall lo o p, kasc lo ks -> In p (k_remap o ks) -> lo <= fst p /\ o <= snd p.
Proof.
  induction ks as [|k ks IH]; intros lo o p H Hp; cbn [k_remap] in Hp; [destruct Hp|]. cbn [kasc] in H. destruct H as [H1 H2].
  apply in_app_or in Hp as [Hp|[<-|Hp]].
  - destruct (k_ts k) as [[i t]|]; [|destruct Hp]. destruct Hp as [<-|[]]. cbn. lia.
  - cbn [fst snd]. unfold k_off. destruct (k_ts k) as [[i t]|]; lia.
  - apply (IH _ _ _ H2) in Hp. unfold k_end in Hp. destruct (k_ts k) as [[i t]|]; lia.
Qed.

Lemma remap_find ks : forall lo o x n, kasc lo ks -> In (x, n) (k_remap o ks) ->
  find (fun p => Nat.eqb (fst p) x) (k_remap o ks) = Some (x, n).
Proof.
  induction ks as [|k ks IH]; intros lo o x n H Hp; cbn [k_remap] in *; [destruct Hp|]. cbn [kasc] in H. destruct H as [H1 H2].
  assert (Hrec : In (x, n) (k_remap (k_end o k) ks) ->
    find (fun p => Nat.eqb (fst p) x) (k_remap (k_end o k) ks) = Some (x, n) /\ k_old k < x).
  { intro Hx. split; [eapply IH; eauto|]. apply (remap_bounds _ _ _ _ H2) in Hx. cbn in Hx. lia. }
  destruct (k_ts k) as [[i t]|]; cbn [app find fst] in *.
  - destruct Hp as [Hp|[Hp|Hp]].
    + injection Hp as E1 E2; subst x n. rewrite Nat.eqb_refl. reflexivity.
    + injection Hp as E1 E2; subst x n. destruct (Nat.eqb_spec i (k_old k)); [lia|]. rewrite Nat.eqb_refl. reflexivity.
    + destruct (Hrec Hp) as [E Hx]. destruct (Nat.eqb_spec i x); [lia|]. destruct (Nat.eqb_spec (k_old k) x); [lia|]. exact E.
  - destruct Hp as [Hp|Hp].
    + injection Hp as E1 E2; subst x n. rewrite Nat.eqb_refl. reflexivity.
    + destruct (Hrec Hp) as [E Hx]. destruct (Nat.eqb_spec (k_old k) x); [lia|]. exact E.
Qed.

Lemma remap_inj ks : forall lo o x y n, kasc lo ks -> In (x, n) (k_remap o ks) -> In (y, n) (k_remap o ks) -> x = y.
Proof.
  induction ks as [|k ks IH]; intros lo o x y n H Hx Hy; cbn [k_remap] in *; [destruct Hx|]. cbn [kasc] in H. destruct H as [H1 H2].
  assert (Hb : forall z, In (z, n) (k_remap (k_end o k) ks) -> k_off o k < n /\ o < n).
  { intros z Hz. apply (remap_bounds _ _ _ _ H2) in Hz. cbn in Hz. unfold k_end, k_off in *. lia. }
  unfold k_off in *. unfold ts_len in *.
  destruct (k_ts k) as [[i t]|]; cbn [app] in *.
  - destruct Hx as [Hx|[Hx|Hx]], Hy as [Hy|[Hy|Hy]];
      try (injection Hx as E1 E2; subst x); try (injection Hy as E3 E4; subst y); auto; try lia; try (apply Hb in Hx; lia); try (apply Hb in Hy; lia).
    all: eapply IH; eauto.
  - destruct Hx as [Hx|Hx], Hy as [Hy|Hy];
      try (injection Hx as E1 E2; subst x); try (injection Hy as E3 E4; subst y); auto; try lia; try (apply Hb in Hx; lia); try (apply Hb in Hy; lia).
    all: eapply IH; eauto.
Qed.

Lemma k_vis_remap_in ks e : forall o, In e (k_vis o ks) -> exists k, In k ks /\ In (k_old k, v_off e) (k_remap o ks) /\ k_text k = v_text e.
Proof.
  induction ks as [|k ks IH]; intros o H; cbn [k_vis] in H; [destruct H|]. destruct H as [<-|H].
  - exists k. cbn. split; auto. split; auto. apply in_or_app. right. left. reflexivity.
  - apply IH in H as (k' & A & B & C). exists k'. split; [right; auto|]. split; auto. cbn [k_remap]. apply in_or_app. right. right. auto.
Qed.

Definition new_offs (remap : list (nat * nat)) (offs : list nat) : list nat :=
  flat_map (fun o => match find (fun p => Nat.eqb (fst p) o) remap with Some (_, n) => [n] | None => [] end) offs.

Lemma translate_nums remap offs : translate remap offs = nums (new_offs remap offs).
Proof.
  induction offs as [|o offs IH]; cbn [translate new_offs flat_map nums]; auto.
  unfold translate in IH. rewrite IH. fold (new_offs remap offs). rewrite nums_app. f_equal.
  destruct (find _ remap) as [[x n]|]; [|reflexivity]. cbn [nums flat_map]. rewrite app_nil_r. reflexivity.
Qed.

Lemma mem_new_offs ks lo o x n offs : kasc lo ks -> In (x, n) (k_remap o ks) ->
  mem_nat n (new_offs (k_remap o ks) offs) = mem_nat x offs.
Proof.
  intros Ha Hin. apply eq_true_iff_eq. rewrite !mem_nat_in. unfold new_offs. rewrite in_flat_map. split.
  - intros (y & Hy & Hn). destruct (find (fun p => Nat.eqb (fst p) y) (k_remap o ks)) as [[z w]|] eqn:E; [|destruct Hn].
    destruct Hn as [->|[]]. apply find_some in E as [E1 E2]. cbn in E2. apply Nat.eqb_eq in E2. subst z.
    rewrite (remap_inj _ _ _ _ _ _ Ha Hin E1). exact Hy.
  - intro Hx. exists x. split; auto. rewrite (remap_find _ _ _ _ _ Ha Hin). left. reflexivity.
Qed.

(** Filtering the rewritten entries by new offset is filtering the kept ones by old offset. *)
Lemma k_vis_filter (p q : nat -> bool) ks : forall o, (forall x n, In (x, n) (k_remap o ks) -> q n = p x) ->
  map v_text (filter (fun e => q (v_off e)) (k_vis o ks)) = map k_text (filter (fun k => p (k_old k)) ks).
Proof.
  induction ks as [|k ks IH]; intros o H; cbn [k_vis filter map]; [reflexivity|]. cbn [v_off].
  rewrite (H (k_old k) (k_off o k)) by (cbn [k_remap]; apply in_or_app; right; left; auto).
  assert (H' : forall x n, In (x, n) (k_remap (k_end o k) ks) -> q n = p x).
  { intros. apply H. cbn [k_remap]. apply in_or_app. right. right. auto. }
  destruct (p (k_old k)); cbn [map]; rewrite (IH _ H'); reflexivity.
Qed.

(** *** Sizes *)

Definition lsize (ls : list (nat * bytes)) : nat := list_sum (map (fun l => S (length (snd l))) ls).
Definition tsize (ts : option (nat * bytes)) : nat := match ts with Some (_, t) => 8 + length t | None => 0 end.
Definition vsize (es : list ventry) : nat := list_sum (map (fun e => S (length (v_text e)) + tsize (v_ts e)) es).

Lemma raw_lines_size f : forall o cur, lsize (raw_lines o cur f) <= length cur + length f.
Proof.
  induction f as [|c f IH]; intros o cur; cbn [raw_lines]; [cbn; lia|].
  destruct (brk c).
  - destruct cur as [|x cur].
    + specialize (IH (S o) []). cbn [length] in *. lia.
    + specialize (IH (S o) []). unfold lsize in *. cbn [map snd list_sum fold_right]. cbn [length] in *.
      fold (list_sum (map (fun l => S (length (snd l))) (raw_lines (S o) [] f))). lia.
  - specialize (IH (S o) (cur ++ [c])). rewrite app_length in IH. cbn [length] in *. lia.
Qed.

Lemma time_line_len t : time_line t = true -> length t = 7 + length (skipn 7 t).
Proof. intro H. apply prefixb_iff in H as [r ->]. rewrite app_length. reflexivity. Qed.

Lemma lsize_cons o t ls : lsize ((o, t) :: ls) = S (length t) + lsize ls.
Proof. reflexivity. Qed.
Lemma vsize_cons e es : vsize (e :: es) = S (length (v_text e)) + tsize (v_ts e) + vsize es.
Proof. reflexivity. Qed.

Lemma vis_size rm ls : forall ts, vsize (visible_from rm ts ls) <= tsize ts + lsize ls.
Proof.
  induction ls as [|[o t] ls IH]; intro ts; cbn [visible_from]; [cbn; lia|]. rewrite lsize_cons.
  destruct (time_line t) eqn:E; [|destruct (bar_line t); [|destruct (rm o)]].
  - specialize (IH (Some (o, skipn 7 t))). cbn [tsize] in IH. apply time_line_len in E. lia.
  - specialize (IH None). cbn [tsize] in IH. lia.
  - specialize (IH ts). lia.
  - specialize (IH None). rewrite vsize_cons. cbn [tsize v_text v_ts] in *. lia.
Qed.

Lemma dedup_size es : vsize (dedup_by v_text es) <= vsize es.
Proof.
  induction es as [|e es IH]; cbn [dedup_by]; auto. destruct (existsb _ es); rewrite ?vsize_cons; lia.
Qed.
Lemma skipn_size n es : vsize (skipn n es) <= vsize es.
Proof.
  revert es; induction n as [|n IH]; intros es; cbn [skipn]; auto. destruct es as [|e es]; auto.
  rewrite vsize_cons. specialize (IH es). lia.
Qed.
Lemma kept_size limit uniq es : vsize (kept limit uniq es) <= vsize es.
Proof.
  unfold kept. destruct (_ && _); [cbn; lia|].
  assert (vsize (uniq_entries uniq es) <= vsize es) by (unfold uniq_entries; destruct uniq; auto; apply dedup_size).
  unfold spec_compact. destruct limit; auto. unfold last_n.
  pose proof (skipn_size (length (uniq_entries uniq es) - S limit) (uniq_entries uniq es)). lia.
Qed.

Lemma k_remap_snd ks : forall o p, In p (k_remap o ks) -> snd p < o + list_sum (map (fun k => ts_len k + S (length (k_text k))) ks).
Proof.
  induction ks as [|k ks IH]; intros o p H; cbn [k_remap] in H; [destruct H|].
  cbn [map list_sum fold_right]. fold (list_sum (map (fun k => ts_len k + S (length (k_text k))) ks)).
  apply in_app_or in H as [H|[<-|H]].
  - destruct (k_ts k) as [[i t]|]; [|destruct H]. destruct H as [<-|[]]. cbn. lia.
  - cbn [snd]. unfold k_off. lia.
  - apply IH in H. unfold k_end in H. lia.
Qed.

Lemma vk_size es : list_sum (map (fun k => ts_len k + S (length (k_text k))) (map vk es)) <= vsize es.
Proof.
  induction es as [|e es IH]; [cbn; lia|]. rewrite vsize_cons. cbn [map].
  change (list_sum (?a :: ?b)) with (a + list_sum b). 
  assert (ts_len (vk e) <= tsize (v_ts e)).
  { unfold ts_len. cbn [vk k_ts]. destruct (v_ts e) as [[i t]|]; cbn [norm_ts tsize]; [destruct t; cbn; lia|lia]. }
  cbn [vk k_text] in *. lia.
Qed.


Lemma write_kept_length ks : forall f, length (fst (write_kept f ks)) =
  length f + list_sum (map (fun k => ts_len k + S (length (k_text k))) ks).
Proof.
  induction ks as [|k ks IH]; intro f; cbn [write_kept map]; [cbn; lia|].
  change (list_sum (?a :: ?b)) with (a + list_sum b).
  unfold ts_len at 1. destruct (k_ts k) as [[i t]|]; unfold wl_add; cbn [fst snd];
  match goal with |- context [write_kept ?g ks] => specialize (IH g); destruct (write_kept g ks) as [g3 m3] end;
  cbn [fst] in *; rewrite IH, !app_length; cbn [length]; [change (length time_prefix) with 7|]; lia.
Qed.

Lemma rewrite_length G f tag limit uniq rw : terminated f -> lines_fit (length G) (lines_of f) -> 0 < length G ->
  rewrite_master_bank G [] f tag limit uniq = Some rw ->
  length (rw_file rw) <= S (length (tag_text tag)) + vsize (visible none_removed f).
Proof.
  intros Ht Hf HG. destruct (read_bank_ok G [] f Ht Hf HG) as (es & d & E & Hes & _).
  rewrite visible_none_removed in Hes. unfold rewrite_master_bank. rewrite E.
  pose proof (keep_fold uniq es) as HK. destruct (fold_left (keep_line uniq) es ([], [], 0)) as [[vec seen] dups].
  destruct HK as [HK1 HK2]. intro H.
  pose proof (write_kept_length (from_start vec (limit_start vec limit)) (fst (wl_add [] (tag_text tag)))) as HL.
  destruct (write_kept _ _) as [f1 remap]. injection H as <-. cbn [rw_file fst wl_add app] in *.
  assert (Hmk : map kp es = map vk (visible none_removed f)).
  { rewrite <- Hes, map_map. apply map_ext. intro. symmetry. apply vk_kp. }
  assert (HS : somes vec = map vk (uniq_entries uniq (visible none_removed f))).
  { rewrite HK2, Hmk. unfold uniq_entries. destruct uniq; auto. apply dedup_map. reflexivity. }
  assert (Hlen : length vec = length (visible none_removed f)) by (rewrite HK1, <- Hes, map_length; reflexivity).
  assert (Hks : from_start vec (limit_start vec limit) = map vk (kept limit uniq (visible none_removed f))).
  { rewrite from_start_spec, HS, Hlen, map_length. unfold kept.
    destruct (_ && _); [reflexivity|]. unfold spec_compact. destruct limit; auto. apply last_n_map. }
  rewrite Hks in HL. rewrite HL, app_length. cbn [length].
  pose proof (vk_size (kept limit uniq (visible none_removed f))).
  pose proof (kept_size limit uniq (visible none_removed f)). lia.
Qed.

Lemma vis_tagged_size tag rest : good_tag tag -> S (length tag) + vsize (visible none_removed (tag ++ LF :: rest)) <= length (tag ++ LF :: rest).
Proof.
  intro Hg. unfold visible. rewrite lines_tagged by auto. cbn [visible_from].
  destruct (good_tag_bar _ Hg) as [-> ->].
  pose proof (vis_size none_removed (raw_lines (S (length tag)) [] rest) None) as H1.
  pose proof (raw_lines_size rest (S (length tag)) []) as H2. cbn [tsize length] in *.
  rewrite app_length. cbn [length]. lia.
Qed.

(** New lines are not longer than old ones. *)
Definition vfit (cap : nat) (e : ventry) : Prop :=
  length (v_text e) < cap /\ (match v_ts e with Some (_, t) => 7 + length t < cap | None => True end).
Lemma k_lines_fit cap es : forall o, (forall e, In e es -> vfit cap e) ->
  lines_fit cap (k_lines o (map vk es)).
Proof.
  unfold lines_fit. induction es as [|e es IH]; intros o H; cbn [map k_lines]; [constructor|].
  destruct (H e) as [H1 H2]; [left; auto|]. apply Forall_app. split.
  - cbn [vk k_ts]. destruct (v_ts e) as [[i t]|]; cbn [norm_ts]; [|constructor]. destruct t; [constructor|].
    constructor; [|constructor]. cbn [snd]. rewrite app_length. change (length TIME) with 7. exact H2.
  - constructor; [exact H1|]. apply IH. intros; apply H; right; auto.
Qed.

Lemma vis_fit cap f e : lines_fit cap (lines_of f) -> In e (visible none_removed f) -> vfit cap e.
Proof.
  intros Hf H. unfold lines_fit in Hf. rewrite Forall_forall in Hf.
  pose proof (visible_from_ts _ _ _ _ H) as Hts. apply visible_from_in in H as (Hin & _).
  split; [apply (Hf _ Hin)|]. destruct Hts as [->|[->|(o & t & Hi & Ht & ->)]]; auto.
  rewrite <- time_line_len by auto. apply (Hf _ Hi).
Qed.

(** ** Compaction *)

Section Compact.
Variable G T : bytes.
Hypothesis HG : 51 < length G.
Hypothesis HT : 51 <= length T.

Lemma compact_ok tag limit uniq m rems : wf_master (length G) m -> tag_ranges tag ->
  (N.of_nat (length m + 50) <= max_off)%N ->
  exists m' remap, compact_rewrite G T tag limit uniq m rems =
      Some (m', map (compact_removals T m (tag_text tag) remap) rems, tag_text tag) /\
    wf_master (length G) m' /\ tag_of m' = tag_text tag /\
    map shown_as (visible none_removed m') = map shown_as (kept limit uniq (visible none_removed m)) /\
    deleted_count none_removed m' = 0 /\
    (forall r, rem_current m r ->
       rem_current m' (compact_removals T m (tag_text tag) remap r) /\
       map v_text (view_master m' (compact_removals T m (tag_text tag) remap r)) =
       map v_text (filter (fun e => negb (spec_removed m r (v_off e))) (kept limit uniq (visible none_removed m)))) /\
    (forall tag' os, good_tag tag' -> tag_of m <> tag' -> Forall (fun o => (N.of_nat o < max_off)%N) os ->
       compact_removals T m (tag_text tag) remap (Some (rem_file (Some tag') os)) = Some (rem_file (Some tag') os)).
Proof.
  intros ((Ht & Hf & Hsz) & otag & rest & Em & Hg) Hr Hsz'. pose proof (tag_text_good _ Hr) as Hgn.
  assert (Hf' : lines_fit (length G) (lines_of m)) by (eapply lines_fit_mono; [|exact Hf]; lia).
  destruct (rewrite_ok G m tag limit uniq Ht Hf') as (rw & E & (x & Ex) & W1 & W2 & W3 & W4 & _ & Wg); [lia|exact Hr|].
  pose proof (rewrite_length G m tag limit uniq rw Ht Hf') as HL. specialize (HL ltac:(lia) E).
  cbv zeta in *. unfold compact_rewrite. rewrite E.
  assert (Hx : tag_or_empty (extract_ctag max_ctag_size (rw_file rw)) = tag_text tag).
  { rewrite Ex, extract_ctag_ok; auto. }
  rewrite Hx. exists (rw_file rw), (rw_remap rw). split; [reflexivity|].
  pose proof Hg as (_ & _ & Hgl). pose proof Hgn as (_ & _ & Hgnl).
  assert (Hm' : length (rw_file rw) <= length m + 50).
  { subst m. pose proof (vis_tagged_size otag rest Hg). lia. }
  split; [|split; [|split; [|split; [|split]]]].
  - split; [|exists (tag_text tag), x; auto]. split; [exact W1|]. split; [|lia].
    rewrite W2. constructor; [cbn [snd]; lia|].
    apply k_lines_fit. intros e He. apply kept_incl in He. apply (vis_fit _ m); auto.
  - exact Hx.
  - rewrite W3. apply k_vis_shown.
  - unfold deleted_count. rewrite W2. replace (prefixb CTAG (tag_text tag)) with true by (symmetry; apply Hgn).
    unfold deleted_lines. generalize (S (length (tag_text tag))). clear - Wg.
    induction Wg as [|k ks (G1 & G2 & G3 & G4) _ IH]; intro o; [reflexivity|].
    cbn [k_lines]. rewrite filter_app, app_length. cbn [filter]. unfold is_deleted at 2. cbn [snd fst none_removed].
    rewrite G3, orb_false_r, andb_false_r. rewrite IH.
    destruct (k_ts k) as [[i t]|]; [|reflexivity]. cbn [filter]. unfold is_deleted. cbn [snd].
    rewrite time_line_app. reflexivity.
  - intros r Hcur. destruct r as [rf|].
    + destruct Hcur as (tag0 & rest0 & os & Em0 & Hg0 & -> & Hos).
      assert (Hfe : for_each_removal T m (Some (rem_file (Some tag0) os)) = Some (offs_of os)).
      { rewrite (for_each_removal_tagged T m tag0 rest0 tag0 os) by auto. rewrite eqb_bytes_refl. reflexivity. }
      cbn [compact_removals]. rewrite Hfe. unfold rewrite_removals. rewrite translate_nums.
      assert (Erf : tag_text tag ++ [LF] ++ nums (new_offs (rw_remap rw) (offs_of os)) =
                    rem_file (Some (tag_text tag)) (new_offs (rw_remap rw) (offs_of os))) by reflexivity.
      rewrite Erf.
      assert (Hka : kasc 0 (map vk (kept limit uniq (visible none_removed m)))).
      { apply kasc_kept. apply vis_kasc; [apply lines_of_ascending|intros; lia|exact I]. }
      split.
      * exists (tag_text tag), x, (new_offs (rw_remap rw) (offs_of os)). split; [exact Ex|]. split; [exact Hgn|].
        split; [reflexivity|]. apply Forall_forall. intros n Hn. unfold new_offs in Hn.
        apply in_flat_map in Hn as (y & _ & Hn).
        destruct (find (fun p => Nat.eqb (fst p) y) (rw_remap rw)) as [[z w]|] eqn:Ef; [|destruct Hn].
        destruct Hn as [->|[]]. apply find_some in Ef as [Ef _]. rewrite W4 in Ef. apply k_remap_snd in Ef. cbn [snd] in Ef.
        pose proof (vk_size (kept limit uniq (visible none_removed m))).
        pose proof (kept_size limit uniq (visible none_removed m)).
        pose proof (vis_tagged_size otag rest Hg) as Hv. rewrite <- Em in Hv. unfold max_off in *. lia.
      * unfold view_master, visible. rewrite W2. cbn [visible_from].
        destruct (good_tag_bar _ Hgn) as [-> ->].
        assert (Hot : forall l : list ventry, map v_text l = map snd (map off_text l)).
        { intro l. rewrite map_map. reflexivity. }
        rewrite Hot, k_lines_visible_rm by auto. rewrite <- Hot.
        rewrite (k_vis_filter (fun o => negb (mem_nat o (offs_of os)))
                   (fun n => negb (spec_removed (rw_file rw) (Some (rem_file (Some (tag_text tag)) (new_offs (rw_remap rw) (offs_of os)))) n))).
        2:{ intros y n Hyn. f_equal. rewrite Ex, spec_removed_tagged by auto. rewrite eqb_bytes_refl. cbn [andb].
            rewrite W4. eapply mem_new_offs; eauto. }
        assert (Hfm : forall (p : nat -> bool) (l : list ventry), map k_text (filter (fun k => p (k_old k)) (map vk l)) =
                  map v_text (filter (fun e => p (v_off e)) l)).
        { intros p l. induction l as [|e l IH]; cbn [map filter]; auto. cbn [vk k_old].
          destruct (p (v_off e)); cbn [map]; rewrite IH; reflexivity. }
        rewrite (Hfm (fun o => negb (mem_nat o (offs_of os)))). f_equal. apply filter_ext_in'. intros e He. f_equal.
        apply kept_incl in He. apply visible_from_in in He as (Hin & Hb & _).
        rewrite mem_offs. 2:{ eapply (pos_off (length G) m); eauto. split; [split; auto|]. exists otag, rest. auto. }
        rewrite Em0, spec_removed_tagged by auto. rewrite eqb_bytes_refl. reflexivity.
    + split; [exact I|]. cbn [compact_removals].
      transitivity (map v_text (visible none_removed (rw_file rw))).
      { unfold view_master, visible. f_equal. }
      rewrite W3. rewrite k_vis_text. cbn [spec_removed negb]. rewrite filter_all; auto.
  - intros tag' os Hg' Hne Hos. cbn [compact_removals].
    rewrite (for_each_removal_tagged T m otag rest tag' os) by auto.
    assert (Ho : tag_of m = otag). { unfold tag_of. rewrite Em, extract_ctag_ok; auto. }
    rewrite Ho in Hne. destruct (eqb_bytes otag tag') eqn:Eq; [apply eqb_bytes_eq in Eq; congruence|]. reflexivity.
Qed.

End Compact.
