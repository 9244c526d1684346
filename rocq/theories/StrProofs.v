(** Proofs about string buffers. *)
From Verif Require Import Base StrModel StrSpec.
From Coq Require Import Permutation.

(** ** Memory *)

Lemma store_some m i us : i + length us <= length m -> store m i us = Some (firstn i m ++ us ++ skipn (i + length us) m).
Proof. intro H. unfold store. replace (Nat.leb (i + length us) (length m)) with true by lia. reflexivity. Qed.

Lemma store_inv m i us m' : store m i us = Some m' ->
  i + length us <= length m /\ m' = firstn i m ++ us ++ skipn (i + length us) m.
Proof. unfold store. destruct (Nat.leb_spec (i + length us) (length m)); [|discriminate]. intro E; injection E as <-. auto. Qed.

Lemma store_length m i us m' : store m i us = Some m' -> length m' = length m.
Proof. intro H. apply store_inv in H as [H ->]. rewrite !app_length, firstn_length, skipn_length. lia. Qed.

Lemma nth_error_firstn {A} n i (l : list A) : i < n -> nth_error (firstn n l) i = nth_error l i.
Proof.
  revert i l; induction n as [|n IH]; intros i l H; [lia|]. destruct l as [|x l]; [now destruct i|].
  destruct i as [|i]; [reflexivity|]. cbn. apply IH; lia.
Qed.
Lemma nth_error_skipn {A} n i (l : list A) : nth_error (skipn n l) i = nth_error l (n + i).
Proof.
  revert l; induction n as [|n IH]; intro l; [reflexivity|]. destruct l as [|x l]; [now destruct i|]. cbn. apply IH.
Qed.

Lemma store_nth m i us m' j : store m i us = Some m' ->
  nth_error m' j = if Nat.ltb j i then nth_error m j else if Nat.ltb j (i + length us) then nth_error us (j - i) else nth_error m j.
Proof.
  intro H. apply store_inv in H as [H ->].
  destruct (Nat.ltb_spec j i).
  - rewrite nth_error_app1 by (rewrite firstn_length; lia). apply nth_error_firstn; auto.
  - rewrite nth_error_app2 by (rewrite firstn_length; lia). rewrite firstn_length, Nat.min_l by lia.
    destruct (Nat.ltb_spec j (i + length us)).
    + apply nth_error_app1. lia.
    + rewrite nth_error_app2 by lia. rewrite nth_error_skipn. f_equal. lia.
Qed.

Lemma store_prefix m i us m' n : store m i us = Some m' -> n <= i -> firstn n m' = firstn n m.
Proof.
  intros H Hn. apply store_inv in H as [H ->]. rewrite firstn_app, firstn_firstn, Nat.min_l by auto.
  rewrite firstn_length, Nat.min_l by lia. replace (n - i) with 0 by lia. rewrite firstn_O, app_nil_r. reflexivity.
Qed.

Lemma store_upto m i us m' : store m i us = Some m' -> firstn (i + length us) m' = firstn i m ++ us.
Proof.
  intro H. apply store_inv in H as [H ->]. rewrite app_assoc. apply firstn_app_exact.
  rewrite app_length, firstn_length. lia.
Qed.

Lemma in_firstn_nth n m : In 0%N (firstn n m) <-> exists i, i < n /\ nth_error m i = Some 0%N.
Proof.
  split.
  - intro H. apply In_nth_error in H as [i Hi]. exists i.
    assert (i < length (firstn n m)) by (apply nth_error_Some; congruence). rewrite firstn_length in *.
    split; [lia|]. rewrite nth_error_firstn in Hi by lia. auto.
  - intros (i & Hi & Hn). apply nth_error_In with (n := i). rewrite nth_error_firstn by auto. auto.
Qed.

Lemma strlen_cstr m : has_nul m -> strlen m = Some (length (cstr m)) /\ nth_error m (length (cstr m)) = Some 0%N /\
  cstr m = firstn (length (cstr m)) m.
Proof.
  induction m as [|u m IH]; intro H; [destruct H|]. cbn [strlen cstr].
  destruct (N.eqb_spec u 0) as [->|Hu]; [auto|].
  destruct H as [H|H]; [congruence|]. destruct (IH H) as (-> & H2 & H3). cbn [length]. split; [auto|]. split; [auto|].
  cbn [firstn]. f_equal. auto.
Qed.

Lemma cstr_length_lt n m : In 0%N (firstn n m) -> length (cstr m) < n.
Proof.
  revert n; induction m as [|u m IH]; intros n H; [rewrite firstn_nil in H; destruct H|].
  destruct n as [|n]; [destruct H|]. cbn [firstn] in H. cbn [cstr]. destruct (N.eqb_spec u 0) as [->|Hu]; [cbn; lia|].
  destruct H as [H|H]; [congruence|]. apply IH in H. cbn [length]. lia.
Qed.

Lemma in_firstn_in {A} n (l : list A) x : In x (firstn n l) -> In x l.
Proof. intro H. rewrite <- (firstn_skipn n l). apply in_or_app. auto. Qed.

Lemma cstr_app t m : no_nul t -> cstr (t ++ m) = t ++ cstr m.
Proof.
  induction t as [|u t IH]; intro H; [reflexivity|]. inversion_clear H. cbn [app cstr].
  replace (u =? 0)%N with false by lia. f_equal. auto.
Qed.
Lemma cstr_app0 t m : no_nul t -> cstr (t ++ 0%N :: m) = t.
Proof. intro H. rewrite cstr_app by auto. apply app_nil_r. Qed.
Lemma cstr_no_nul m : no_nul (cstr m).
Proof. induction m as [|u m IH]; cbn [cstr]; [constructor|]. destruct (N.eqb_spec u 0); constructor; auto. Qed.

(** ** Heaps *)

Definition hwf (h : heap) : Prop := NoDup (h_live h) /\ forall x, In x (h_live h) -> x < h_next h.
Definition hown (h : heap) (s : str) : Prop := incl (own s) (h_live h).

(** The heap effect of an operation on one string. *)
Definition hrel (h : heap) (s : str) (h' : heap) (s' : str) : Prop :=
  hwf h' /\ hown h' s' /\ h_next h <= h_next h' /\
  (forall x, In x (h_live h') <-> (In x (h_live h) /\ ~ In x (own s)) \/ In x (own s')) /\
  (own s' = own s \/ exists b, own s' = [b] /\ h_next h <= b).

Lemma hrel_refl h s s' : hwf h -> hown h s -> own s' = own s -> hrel h s h s'.
Proof.
  intros Hh Ho E. split; [auto|]. split; [unfold hown; rewrite E; auto|]. split; [auto|]. split; [|auto].
  intro x. rewrite E. split; [|intros [[]|]; auto].
  intro Hx. destruct (in_dec Nat.eq_dec x (own s)); auto.
Qed.

Lemma hrel_trans h s h1 s1 h2 s2 : hwf h -> hown h s -> hrel h s h1 s1 -> hrel h1 s1 h2 s2 -> hrel h s h2 s2.
Proof.
  intros Hh Ho (A1 & A2 & A3 & A4 & A5) (B1 & B2 & B3 & B4 & B5).
  split; [auto|]. split; [auto|]. split; [lia|].
  split.
  - intro x. rewrite B4, A4. split.
    + intros [[[H|H] Hn]|H]; auto. contradiction.
    + intros [[H Hn]|H]; [|auto]. left. split; [auto|]. intro H1.
      destruct A5 as [E|(b & E & Hb)]; [congruence|]. rewrite E in H1. destruct H1 as [<-|[]].
      apply Hh in H. lia.
  - destruct B5 as [->|(b & E & Hb)]; [auto|]. right. exists b. split; [auto|lia].
Qed.

Lemma h_free_ok h b : In b (h_live h) -> h_free h b = Some (mkH (h_next h) (remove Nat.eq_dec b (h_live h))).
Proof.
  intro H. unfold h_free. assert (existsb (Nat.eqb b) (h_live h) = true) as ->; [|reflexivity].
  apply existsb_exists. exists b. rewrite Nat.eqb_refl. auto.
Qed.

Lemma NoDup_remove_elt b l : NoDup l -> NoDup (remove Nat.eq_dec b l).
Proof.
  induction l as [|x l IH]; intro H; cbn; auto. inversion_clear H. destruct (Nat.eq_dec b x); auto. constructor; auto.
  intro Hx. apply in_remove in Hx. tauto.
Qed.

Lemma free_data_ok h s : hwf h -> hown h s -> exists h', free_data h s = Some h' /\ hwf h' /\ h_next h' = h_next h /\
  forall x, In x (h_live h') <-> In x (h_live h) /\ ~ In x (own s).
Proof.
  intros Hh Ho. unfold free_data, hown, own in *. destruct (s_heap s) as [[b m]|].
  - rewrite h_free_ok by (apply Ho; left; auto). eexists. split; [reflexivity|]. cbn [h_live h_next].
    split; [split; [apply NoDup_remove_elt, Hh|]|].
    + intros x Hx. apply in_remove in Hx. apply Hh, Hx.
    + split; [auto|]. intro x. split; intro H.
      * apply in_remove in H as [H Hn]. split; [auto|]. intros [->|[]]; auto.
      * apply in_in_remove; [|apply H]. intros ->. apply (proj2 H). left; auto.
  - exists h. split; [auto|]. split; [auto|]. split; [auto|]. intro x. cbn. tauto.
Qed.

Section S.
Variable max_size : nat.
Variable fresh : nat -> nat -> list N.
Hypothesis Hfresh : forall b n, length (fresh b n) = n.
Hypothesis Hmax : 1 <= max_size.
Notation wf := (wf max_size).

Lemma s_mem_set s m : s_mem (set_mem s m) = m.
Proof. unfold s_mem, set_mem. destruct (s_heap s) as [[b m']|]; reflexivity. Qed.
Lemma s_mem_len s n : s_mem (set_len s n) = s_mem s. Proof. reflexivity. Qed.
Lemma own_set_mem s m : own (set_mem s m) = own s.
Proof. unfold own, set_mem. destruct (s_heap s) as [[b m']|] eqn:E; cbn; [reflexivity|auto]. Qed.
Lemma size_set_mem s m : s_size (set_mem s m) = s_size s.
Proof. unfold set_mem. destruct (s_heap s) as [[b m']|]; reflexivity. Qed.
Lemma grow_set_mem s m : s_grow (set_mem s m) = s_grow s.
Proof. unfold set_mem. destruct (s_heap s) as [[b m']|]; reflexivity. Qed.
Lemma len_set_mem s m : s_len (set_mem s m) = s_len s.
Proof. unfold set_mem. destruct (s_heap s) as [[b m']|]; reflexivity. Qed.
Lemma inl_set_mem s m : s_inl (set_mem s m) = match s_heap s with Some _ => s_inl s | None => m end.
Proof. unfold set_mem. destruct (s_heap s) as [[b m']|]; reflexivity. Qed.

(** A string with new memory and length. *)
Lemma wf_update s m n : wf s -> length m = length (s_mem s) -> has_nul (firstn (s_size s) m) ->
  (n <> 0 -> n < s_size s /\ nth_error m n = Some 0%N) -> wf (set_len (set_mem s m) n).
Proof.
  intros W Hl Hn Hk. destruct W as [W1 W2 W3 W4 W5 W6].
  constructor; cbn [s_size s_inl s_len s_heap set_len]; rewrite ?s_mem_len, ?s_mem_set, ?size_set_mem; auto.
  - lia.
  - rewrite inl_set_mem. destruct (s_heap s) eqn:E; auto. unfold s_mem in Hl. rewrite E in Hl. lia.
  - rewrite inl_set_mem. destruct (s_heap s) eqn:E; auto. intros _. eapply in_firstn_in; eauto.
Qed.

(** Everything but the NULs in the memory. *)
Record wfb (s : str) : Prop := {
  wfb_size : 1 <= s_size s <= length (s_mem s);
  wfb_max : s_size s <= max_size;
  wfb_inl : 1 <= length (s_inl s) <= max_size;
  wfb_inl_nul : length (s_inl s) = 1 -> has_nul (s_inl s) }.
Lemma wf_wfb s : wf s -> wfb s.
Proof. intros [W1 W2 W3 W4 W5 W6]. constructor; auto. Qed.
Lemma wfb_wf s : wfb s -> has_nul (firstn (s_size s) (s_mem s)) ->
  (s_len s <> 0 -> s_len s < s_size s /\ nth_error (s_mem s) (s_len s) = Some 0%N) -> wf s.
Proof. intros [W1 W2 W3 W4] W5 W6. constructor; auto. Qed.
Lemma wf_update_b s m n : wfb s -> length m = length (s_mem s) -> has_nul (firstn (s_size s) m) ->
  (n <> 0 -> n < s_size s /\ nth_error m n = Some 0%N) -> wf (set_len (set_mem s m) n).
Proof.
  intros W Hl Hn Hk. destruct W as [W1 W2 W3 W4].
  constructor; cbn [s_size s_inl s_len s_heap set_len]; rewrite ?s_mem_len, ?s_mem_set, ?size_set_mem; auto.
  - lia.
  - rewrite inl_set_mem. destruct (s_heap s) eqn:E; auto. unfold s_mem in Hl. rewrite E in Hl. lia.
  - rewrite inl_set_mem. destruct (s_heap s) eqn:E; auto. intros _. eapply in_firstn_in; eauto.
Qed.

(** *** length *)
Lemma slength_ok s : wf s -> slength max_size s = Some (length (contents s), set_len s (length (contents s))) /\
  length (contents s) < s_size s /\ nth_error (s_mem s) (length (contents s)) = Some 0%N /\
  contents s = firstn (length (contents s)) (s_mem s) /\ wf (set_len s (length (contents s))).
Proof.
  intro W. unfold slength, contents. destruct (s_len s) as [|n] eqn:En.
  - change (Nat.eqb 0 0) with true. cbv iota. pose proof (wf_nul _ _ W) as Hnul. unfold has_nul in Hnul.
    destruct (strlen_cstr (s_mem s)) as (-> & H2 & H3); [eapply in_firstn_in; eauto|].
    apply cstr_length_lt in Hnul. pose proof (wf_max _ _ W).
    rewrite Nat.mod_small by lia. split; [auto|]. split; [auto|]. split; [auto|]. split; [auto|].
    destruct W as [W1 W2 W3 W4 W5 W6]. constructor; auto.
  - change (Nat.eqb (S n) 0) with false. cbv iota.
    destruct (wf_len _ _ W) as [Hlt Hz]; [congruence|]. rewrite En in *. pose proof (wf_size _ _ W).
    rewrite firstn_length, Nat.min_l by lia.
    split; [f_equal; f_equal; destruct s; cbn in *; subst; reflexivity|].
    split; [auto|]. split; [auto|]. split; [auto|].
    destruct W as [W1 W2 W3 W4 W5 W6]. constructor; auto.
Qed.

Lemma contents_known s n : s_len s = n -> nth_error (s_mem s) n = Some 0%N -> contents s = firstn n (s_mem s).
Proof.
  intros <- H. unfold contents. destruct (s_len s) as [|n]; [|reflexivity].
  destruct (s_mem s) as [|u m]; [discriminate|]. cbn in H. injection H as ->. reflexivity.
Qed.

Lemma contents_set_len s : wf s -> contents (set_len s (length (contents s))) = contents s.
Proof.
  intro W. destruct (slength_ok s W) as (_ & _ & H3 & H4 & _).
  rewrite (contents_known _ (length (contents s))); auto.
Qed.

(** *** reserve *)
Lemma round64 n : n <= (n + 63) / 64 * 64 < n + 64.
Proof. lia. Qed.

Lemma reserve_core h s n exact : wfb s -> hwf h -> hown h s ->
  exists h' s' r, reserve max_size fresh h s n exact = Some (h', s', r) /\ wfb s' /\ hrel h s h' s' /\
    s_size s <= s_size s' /\ firstn (s_size s) (s_mem s') = firstn (s_size s) (s_mem s) /\ s_len s' = s_len s /\
    s_grow s' = s_grow s /\
    (r = true -> (if exact then n else S n) <= s_size s') /\ (r = false -> s' = s /\ s_size s < (if exact then n else S n)) /\
    (s_grow s = false -> s' = s) /\
    ((if exact then n else S n) <= s_size s -> s' = s /\ h' = h /\ r = true) /\
    (s_grow s = true -> (if exact then n else (S n + 63) / 64 * 64) <= max_size -> r = true).
Proof.
  intros W Hh Ho. unfold reserve. cbv zeta. set (k := if exact then n else S n).
  destruct (Nat.leb_spec k (s_size s)) as [Hle|Hgt].
  { exists h, s, true. split; [auto|]. split; [auto|]. split; [apply hrel_refl; auto|]. split; [auto|].
    split; [auto|]. split; [auto|]. split; [auto|]. split; [auto|]. split; [discriminate|]. auto. }
  destruct (s_grow s) eqn:Eg; cbn [negb].
  2:{ exists h, s, false. split; [auto|]. split; [auto|]. split; [apply hrel_refl; auto|]. split; [auto|].
      split; [auto|]. split; [auto|]. split; [auto|]. split; [discriminate|]. split; [auto|]. split; [auto|].
      split; [intro; lia|discriminate]. }
  set (k2 := if exact then k else (k + 63) / 64 * 64).
  assert (Hk2 : k <= k2) by (subst k2; destruct exact; lia).
  assert (Ek2 : k2 = if exact then n else (S n + 63) / 64 * 64) by (subst k2 k; destruct exact; reflexivity).
  destruct (Nat.ltb_spec max_size k2) as [Hov|Hok].
  { exists h, s, false. split; [auto|]. split; [auto|]. split; [apply hrel_refl; auto|]. split; [auto|].
    split; [auto|]. split; [auto|]. split; [auto|]. split; [discriminate|]. split; [auto|]. split; [auto|].
    split; [intro; lia|]. intros _ Hm. lia. }
  pose proof W as [W1 W2 W3 W4].
  cbn [h_alloc]. replace (Nat.ltb (length (s_mem s)) (s_size s)) with false by lia.
  set (b := h_next h). set (h1 := mkH (S b) (b :: h_live h)).
  assert (Hfl : length (firstn (s_size s) (s_mem s)) = s_size s) by (rewrite firstn_length; lia).
  rewrite store_some by (rewrite Hfresh, Hfl; lia). rewrite Hfl. cbn [firstn app plus].
  assert (Hb : ~ In b (h_live h)). { intro H. apply Hh in H. subst b. lia. }
  assert (Hh1 : hwf h1).
  { split; [constructor; [auto|apply Hh]|]. intros x [<-|Hx]; cbn; [lia|]. apply Hh in Hx. subst b. lia. }
  assert (Ho1 : hown h1 s). { intros x Hx. right. apply Ho; auto. }
  destruct (free_data_ok h1 s Hh1 Ho1) as (h2 & -> & Hh2 & Hn2 & Hl2).
  set (m := firstn (s_size s) (s_mem s) ++ skipn (s_size s) (fresh b k2)).
  assert (Hm : firstn (s_size s) m = firstn (s_size s) (s_mem s)) by (apply firstn_app_exact; auto).
  assert (Hml : length m = k2). { subst m. rewrite app_length, Hfl, skipn_length, Hfresh. lia. }
  exists h2, (mkS (s_inl s) (Some (b, m)) k2 (s_len s) true), true. split; [reflexivity|].
  split.
  { constructor; unfold s_mem; cbn [s_size s_heap s_inl s_len]; auto; lia. }
  split.
  { assert (Eo : own (mkS (s_inl s) (Some (b, m)) k2 (s_len s) true) = [b]) by reflexivity.
    unfold hrel, hown. rewrite Eo. split; [auto|].
    assert (Hbb : In b (h_live h2)).
    { apply Hl2. split; [left; auto|]. intro Hb2. apply Ho in Hb2. contradiction. }
    split; [intros x [<-|[]]; exact Hbb|]. split; [rewrite Hn2; cbn; lia|].
    split.
    - intro x. rewrite Hl2. unfold h1; cbn [h_live In]. split.
      + intros [[<-|H] Hn]; auto.
      + intros [[H Hn]|[<-|[]]]; [auto|]. split; [auto|]. intro Hb2. apply Ho in Hb2. contradiction.
    - right. exists b. split; [reflexivity|]. subst b. lia. }
  cbn [s_size s_heap s_len s_grow]. unfold s_mem at 1; cbn [s_heap].
  split; [lia|]. split; [auto|]. split; [auto|]. split; [auto|].
  split; [lia|]. split; [discriminate|]. split; [discriminate|]. split; [intro; lia|]. auto.
Qed.

Lemma reserve_ok h s n exact : wf s -> hwf h -> hown h s ->
  exists h' s' r, reserve max_size fresh h s n exact = Some (h', s', r) /\ wf s' /\ hrel h s h' s' /\
    s_size s <= s_size s' /\ firstn (s_size s) (s_mem s') = firstn (s_size s) (s_mem s) /\ s_len s' = s_len s /\
    s_grow s' = s_grow s /\
    (r = true -> (if exact then n else S n) <= s_size s') /\ (r = false -> s' = s /\ s_size s < (if exact then n else S n)) /\
    (s_grow s = false -> s' = s) /\
    ((if exact then n else S n) <= s_size s -> s' = s /\ h' = h /\ r = true) /\
    (s_grow s = true -> (if exact then n else (S n + 63) / 64 * 64) <= max_size -> r = true).
Proof.
  intros W Hh Ho. destruct (reserve_core h s n exact (wf_wfb s W) Hh Ho) as (h' & s' & r & H1 & H2 & H3 & H4 & H5 & H6 & H7).
  exists h', s', r. split; [auto|]. split.
  - apply wfb_wf; auto.
    + pose proof (wf_nul _ _ W) as Hn. apply in_firstn_nth in Hn as (i & Hi & Hz). apply in_firstn_nth. exists i.
      split; [lia|]. rewrite <- (nth_error_firstn (s_size s)) in Hz |- * by auto. rewrite H5. auto.
    + rewrite H6. intro Hl. destruct (wf_len _ _ W Hl) as [Hlt Hz]. split; [lia|].
      rewrite <- (nth_error_firstn (s_size s)) in Hz |- * by auto. rewrite H5. auto.
  - split; [auto|]. split; [auto|]. split; [auto|]. split; [auto|]. exact H7.
Qed.

(** Reserving keeps contents. *)
Lemma reserve_contents s s' : wf s -> wf s' -> s_size s <= s_size s' ->
  firstn (s_size s) (s_mem s') = firstn (s_size s) (s_mem s) -> s_len s' = s_len s -> contents s' = contents s.
Proof.
  intros W W' Hle Hm Hl.
  destruct (slength_ok s W) as (_ & H2 & H3 & H4 & _).
  assert (nth_error (s_mem s') (length (contents s)) = Some 0%N) as H3'.
  { rewrite <- (nth_error_firstn (s_size s)) in H3 |- * by auto. rewrite Hm. auto. }
  unfold contents in *. rewrite Hl. destruct (s_len s) as [|n] eqn:En.
  - rewrite <- (firstn_skipn (s_size s) (s_mem s)), <- (firstn_skipn (s_size s) (s_mem s')), Hm.
    pose proof (wf_nul _ _ W) as Hn. revert Hn. generalize (firstn (s_size s) (s_mem s)). intros a Ha.
    clear - Ha. generalize (skipn (s_size s) (s_mem s')) (skipn (s_size s) (s_mem s)). intros x y.
    induction a as [|u a IH]; [destruct Ha|]. cbn [app cstr]. destruct (N.eqb_spec u 0); auto. f_equal.
    apply IH. destruct Ha; [congruence|auto].
  - pose proof (wf_size _ _ W).
    destruct (wf_len _ _ W) as [Hlt _]; [congruence|]. rewrite En in Hlt.
    replace (firstn (S n) (s_mem s')) with (firstn (S n) (firstn (s_size s) (s_mem s')))
      by (rewrite firstn_firstn; f_equal; lia).
    rewrite Hm, firstn_firstn. f_equal. lia.
Qed.

(** *** clear, truncate *)
Lemma clear_ok s : wf s -> exists s', clear s = Some s' /\ wf s' /\ contents s' = [] /\ own s' = own s /\
  s_size s' = s_size s /\ s_grow s' = s_grow s.
Proof.
  intro W. unfold clear. pose proof (wf_size _ _ W) as Hs.
  destruct (store (s_mem s) 0 [0%N]) as [m|] eqn:E.
  2:{ rewrite store_some in E by (cbn; lia). discriminate. }
  pose proof (store_length _ _ _ _ E) as Hl.
  exists (set_len (set_mem s m) 0). split; [auto|].
  assert (Hz : nth_error m 0 = Some 0%N) by (rewrite (store_nth _ _ _ _ 0 E); reflexivity).
  split.
  { apply wf_update; auto; [|congruence]. apply in_firstn_nth. exists 0. split; [lia|auto]. }
  split.
  { unfold contents. cbn [s_len set_len]. rewrite s_mem_len, s_mem_set. destruct m as [|u m]; [auto|].
    cbn in Hz. injection Hz as ->. reflexivity. }
  split; [apply own_set_mem|]. split; [apply size_set_mem|apply grow_set_mem].
Qed.

Lemma truncate_ok s n : wf s -> exists s', truncate s n = Some s' /\ wf s' /\ own s' = own s /\ s_size s' = s_size s /\
  s_grow s' = s_grow s /\ (n <= length (contents s) -> contents s' = firstn n (contents s)).
Proof.
  intro W. unfold truncate. pose proof (wf_size _ _ W) as Hs.
  destruct (slength_ok s W) as (_ & H2 & H3 & H4 & _).
  destruct (Nat.leb_spec (s_size s) n) as [Hle|Hlt].
  { exists s. split; [auto|]. split; [auto|]. split; [auto|]. split; [auto|]. split; [auto|]. intro. lia. }
  destruct (store (s_mem s) n [0%N]) as [m|] eqn:E.
  2:{ rewrite store_some in E by (cbn; lia). discriminate. }
  pose proof (store_length _ _ _ _ E) as Hl.
  exists (set_len (set_mem s m) n). split; [auto|].
  assert (Hz : nth_error m n = Some 0%N).
  { rewrite (store_nth _ _ _ _ n E), Nat.ltb_irrefl. cbn [length]. replace (Nat.ltb n (n + 1)) with true by lia.
    rewrite Nat.sub_diag. reflexivity. }
  split.
  { apply wf_update; auto. apply in_firstn_nth. exists n. auto. }
  split; [apply own_set_mem|]. split; [apply size_set_mem|]. split; [apply grow_set_mem|].
  intro Hc. rewrite (contents_known _ n); [|reflexivity|rewrite s_mem_len, s_mem_set; auto].
  rewrite s_mem_len, s_mem_set, (store_prefix _ _ _ _ n E) by auto.
  rewrite H4, firstn_firstn. f_equal. lia.
Qed.

(** *** concat *)
Lemma take_c_ok src n : n <= length src \/ has_nul src -> take_c src n = Some (firstn n (cstr src)).
Proof.
  revert src; induction n as [|n IH]; intros src H; [destruct src; reflexivity|].
  destruct src as [|u src]; [destruct H as [H|[]]; cbn in H; lia|]. cbn [take_c cstr].
  destruct (N.eqb_spec u 0); [reflexivity|]. rewrite IH; [reflexivity|].
  destruct H as [H|[H|H]]; [left; cbn in H; lia|congruence|auto].
Qed.

(** The common end of concat, concat_nt and others: storing text and a NUL at the end of the contents. *)
Lemma append_ok s len t : wf s -> s_len s = len -> nth_error (s_mem s) len = Some 0%N -> len + length t < s_size s ->
  exists m, store (s_mem s) len (t ++ [0%N]) = Some m /\ wf (set_len (set_mem s m) (len + length t)) /\
    contents (set_len (set_mem s m) (len + length t)) = contents s ++ t.
Proof.
  intros W El Hz Hlt. pose proof (wf_size _ _ W) as Hs.
  destruct (store (s_mem s) len (t ++ [0%N])) as [m|] eqn:E.
  2:{ rewrite store_some in E by (rewrite app_length; cbn; lia). discriminate. }
  exists m. split; [auto|]. pose proof (store_length _ _ _ _ E) as Hl.
  assert (Hz' : nth_error m (len + length t) = Some 0%N).
  { rewrite (store_nth _ _ _ _ _ E). replace (Nat.ltb (len + length t) len) with false by lia.
    rewrite app_length. cbn [length]. replace (Nat.ltb (len + length t) (len + (length t + 1))) with true by lia.
    rewrite nth_error_app2 by lia. replace (len + length t - len - length t) with 0 by lia. reflexivity. }
  split.
  { apply wf_update; auto. apply in_firstn_nth. exists (len + length t). auto. }
  rewrite (contents_known _ (len + length t)); [|reflexivity|rewrite s_mem_len, s_mem_set; auto].
  rewrite s_mem_len, s_mem_set. rewrite (contents_known s len) by auto.
  pose proof (store_upto _ _ _ _ E) as Hu. rewrite app_length in Hu. cbn [length] in Hu.
  replace (firstn (len + length t) m) with (firstn (len + length t) (firstn (len + (length t + 1)) m))
    by (rewrite firstn_firstn; f_equal; lia).
  rewrite Hu, app_assoc. apply firstn_app_exact. rewrite app_length, firstn_length. lia.
Qed.

Lemma concat_ok h s src n : wf s -> hwf h -> hown h s ->
  match n with Some k => k <= length src \/ has_nul src | None => has_nul src end ->
  let len := length (contents s) in
  let k := match n with Some k => k | None => length (cstr src) end in
  let arg := firstn k (cstr src) in
  exists h' s' r, concat max_size fresh h s src n = Some (h', s', r) /\ wf s' /\ hrel h s h' s' /\ s_grow s' = s_grow s /\
    s_size s <= s_size s' /\
    contents s' = contents s ++ firstn (s_size s' - 1 - len) arg /\
    (r = true <-> len + k < s_size s') /\
    (s_grow s = false -> s_size s' = s_size s) /\
    (s_grow s = true -> (len + k + 64) / 64 * 64 <= max_size -> r = true).
Proof.
  intros W Hh Ho Hsrc len k arg. unfold concat.
  assert ((match n with Some k => Some k | None => strlen src end) = Some k) as ->.
  { subst k. destruct n; [auto|]. apply strlen_cstr; auto. }
  assert (Hsrc' : k <= length src \/ has_nul src) by (destruct n; auto).
  destruct (slength_ok s W) as (-> & H2 & H3 & H4 & W0). fold len in H2, H3, H4, W0 |- *.
  set (s0 := set_len s len) in *.
  destruct (reserve_ok h s0 (len + k) false W0 Hh Ho) as (h1 & s1 & r1 & -> & W1 & Hr & Hsz & Hm & Hl & Hg & R1 & R2 & R3 & R4 & R5).
  cbv zeta. assert (C1 : contents s1 = contents s0) by (apply reserve_contents; auto).
  assert (C0 : contents s0 = contents s) by (apply contents_set_len; auto).
  assert (Hz1 : nth_error (s_mem s1) len = Some 0%N).
  { change (s_size s) with (s_size s0) in H2. change (s_mem s) with (s_mem s0) in H3.
    rewrite <- (nth_error_firstn (s_size s0)) in H3 |- * by auto. rewrite Hm. auto. }
  change (s_len s0) with len in Hl. change (s_grow s0) with (s_grow s) in *. change (s_size s0) with (s_size s) in *.
  assert (Hrel : hrel h s h1 s1) by exact Hr.
  set (tr := Nat.ltb (s_size s1) (len + 1 + k)).
  set (rem := if tr then s_size s1 - len - 1 else k).
  assert (Hrem : rem = Nat.min (s_size s1 - 1 - len) k) by (subst rem tr; destruct (Nat.ltb_spec (s_size s1) (len + 1 + k)); lia).
  assert (Hfin : (negb tr = true <-> len + k < s_size s1) /\ (s_grow s = false -> s_size s1 = s_size s) /\
     (s_grow s = true -> (len + k + 64) / 64 * 64 <= max_size -> negb tr = true)).
  { split; [subst tr; destruct (Nat.ltb_spec (s_size s1) (len + 1 + k)); cbn [negb]; split; intro; auto; try discriminate; lia|].
    split; [intro Hgf; rewrite R3 by auto; reflexivity|].
    intros Hgt Hlim. replace (S (len + k) + 63) with (len + k + 64) in R5 by lia.
    assert (Er : r1 = true) by auto. specialize (R1 Er). subst tr. replace (Nat.ltb (s_size s1) (len + 1 + k)) with false by lia. reflexivity. }
  assert (Harg : firstn rem (cstr src) = firstn (s_size s1 - 1 - len) arg).
  { subst arg. rewrite firstn_firstn. f_equal. auto. }
  destruct (Nat.eqb_spec rem 0) as [E0|E0].
  - exists h1, s1, (negb tr). split; [auto|]. split; [auto|]. split; [auto|]. split; [auto|]. split; [lia|].
    split; [|exact Hfin]. rewrite C1, C0, <- Harg, E0. cbn [firstn]. symmetry. apply app_nil_r.
  - rewrite take_c_ok by (destruct Hsrc'; [left; lia|auto]).
    set (t := firstn rem (cstr src)) in *.
    assert (length t <= rem) by (subst t; rewrite firstn_length; lia).
    destruct (append_ok s1 len t W1 Hl Hz1) as (m & -> & Wm & Cm); [lia|].
    eexists h1, _, (negb tr). split; [reflexivity|]. split; [exact Wm|].
    split. { destruct Hrel as (A1 & A2 & A3 & A4 & A5).
      assert (Eo : own (set_len (set_mem s1 m) (len + length t)) = own s1) by (unfold own; cbn [set_len s_heap]; apply own_set_mem).
      split; [auto|]. split; [unfold hown; rewrite Eo; auto|]. split; [auto|]. rewrite Eo. auto. }
    cbn [set_len s_grow s_size]. rewrite grow_set_mem, size_set_mem. split; [auto|]. split; [lia|].
    split; [|exact Hfin].
    rewrite Cm, C1, C0, <- Harg. reflexivity.
Qed.

Lemma concat_nt_ok h s src n : wf s -> hwf h -> hown h s -> n <= length src ->
  exists h' s' r, concat_nt max_size fresh h s src n = Some (h', s', r) /\ wf s' /\ hrel h s h' s' /\ s_grow s' = s_grow s /\
    s_size s <= s_size s' /\
    contents s' = (if r then contents s ++ firstn n src else contents s) /\
    (s_grow s = false -> s_size s' = s_size s) /\
    (r = false -> s_size s' <= length (contents s) + n) /\
    (s_grow s = true -> (length (contents s) + n + 64) / 64 * 64 <= max_size -> r = true).
Proof.
  intros W Hh Ho Hsrc. unfold concat_nt. set (len := length (contents s)).
  destruct (Nat.eqb_spec n 0) as [->|Hn].
  { exists h, s, true. split; [auto|]. split; [auto|]. split; [apply hrel_refl; auto|]. split; [auto|]. split; [auto|].
    split; [symmetry; apply app_nil_r|]. split; [auto|]. split; [discriminate|auto]. }
  destruct (slength_ok s W) as (-> & H2 & H3 & H4 & W0). fold len in H2, H3, H4, W0 |- *.
  set (s0 := set_len s len) in *.
  destruct (reserve_ok h s0 (len + n) false W0 Hh Ho) as (h1 & s1 & r1 & -> & W1 & Hr & Hsz & Hm & Hl & Hg & R1 & R2 & R3 & R4 & R5).
  assert (C1 : contents s1 = contents s0) by (apply reserve_contents; auto).
  assert (C0 : contents s0 = contents s) by (apply contents_set_len; auto).
  assert (Hz1 : nth_error (s_mem s1) len = Some 0%N).
  { change (s_size s) with (s_size s0) in H2. change (s_mem s) with (s_mem s0) in H3.
    rewrite <- (nth_error_firstn (s_size s0)) in H3 |- * by auto. rewrite Hm. auto. }
  change (s_len s0) with len in Hl. change (s_grow s0) with (s_grow s) in *. change (s_size s0) with (s_size s) in *.
  assert (Hrel : hrel h s h1 s1) by exact Hr.
  assert (Hns : s_grow s = false -> s_size s1 = s_size s) by (intro Hgf; rewrite R3 by auto; reflexivity).
  assert (Hgr : s_grow s = true -> (len + n + 64) / 64 * 64 <= max_size -> len + n < s_size s1).
  { intros Hgt Hlim. replace (S (len + n) + 63) with (len + n + 64) in R5 by lia.
    assert (Er : r1 = true) by auto. specialize (R1 Er). lia. }
  destruct (Nat.ltb_spec (s_size s1) (len + 1 + n)) as [Hlt|Hge].
  - exists h1, s1, false. split; [auto|]. split; [auto|]. split; [auto|]. split; [auto|]. split; [lia|].
    split; [congruence|]. split; [auto|]. split; [lia|]. intros Hgt Hlim. specialize (Hgr Hgt Hlim). lia.
  - replace (Nat.ltb (length src) n) with false by lia.
    assert (Hfl : length (firstn n src) = n) by (rewrite firstn_length; lia).
    destruct (append_ok s1 len (firstn n src) W1 Hl Hz1) as (m & -> & Wm & Cm); [lia|].
    rewrite Hfl in *.
    eexists h1, _, true. split; [reflexivity|]. split; [exact Wm|].
    split. { destruct Hrel as (A1 & A2 & A3 & A4 & A5).
      assert (Eo : own (set_len (set_mem s1 m) (len + n)) = own s1) by (unfold own; cbn [set_len s_heap]; apply own_set_mem).
      split; [auto|]. split; [unfold hown; rewrite Eo; auto|]. split; [auto|]. rewrite Eo. auto. }
    cbn [set_len s_grow s_size]. rewrite grow_set_mem, size_set_mem. split; [auto|]. split; [lia|].
    split; [rewrite Cm; congruence|]. split; [auto|]. split; [discriminate|auto].
Qed.

(** ** trim *)

Lemma trim_back_snoc l u : trim_back (l ++ [u]) = if is_ws u then trim_back l else l ++ [u].
Proof.
  induction l as [|x l IH]; cbn [app trim_back].
  - unfold is_ws. destruct ((u =? 32) || (u =? 9) || (u =? 13) || (u =? 10))%N; reflexivity.
  - rewrite IH. destruct (is_ws u); [reflexivity|]. destruct l; reflexivity.
Qed.

Lemma trim_back_prefix l : exists k, k <= length l /\ trim_back l = firstn k l.
Proof.
  induction l as [|x l (k & Hk & IH)]; [exists 0; auto|]. cbn [trim_back]. rewrite IH.
  destruct (firstn k l) as [|y r] eqn:E.
  - destruct ((x =? 32) || (x =? 9) || (x =? 13) || (x =? 10))%N; [exists 0|exists 1]; (split; [cbn; lia|reflexivity]).
  - exists (S k). split; [cbn; lia|]. cbn [firstn]. rewrite E. reflexivity.
Qed.

Lemma trim_end_ok m e : e <= length m -> trim_end m e = Some (length (trim_back (firstn e m))).
Proof.
  induction e as [|e IH]; intro H; [reflexivity|]. cbn [trim_end].
  destruct (nth_error m e) as [u|] eqn:E; [|apply nth_error_None in E; lia].
  assert (firstn (S e) m = firstn e m ++ [u]) as ->.
  { clear - E. revert e E; induction m as [|x m IH]; intros e E; [destruct e; discriminate|].
    destruct e as [|e]; [cbn in E; injection E as ->; reflexivity|]. cbn in E. cbn [firstn app]. f_equal. apply IH; auto. }
  rewrite trim_back_snoc. destruct (is_ws u); [apply IH; lia|]. f_equal. rewrite app_length, firstn_length. cbn; lia.
Qed.

Lemma trim_pos_ok m e : forall fuel pos, pos <= e <= length m -> e - pos < fuel ->
  exists p, trim_pos m fuel pos e = Some p /\ pos <= p <= e /\
    firstn (e - p) (skipn p m) = trim_front (firstn (e - pos) (skipn pos m)).
Proof.
  induction fuel as [|k IH]; intros pos H Hf; [lia|]. cbn [trim_pos].
  destruct (Nat.ltb_spec pos e) as [Hlt|Hge].
  - destruct (nth_error m pos) as [u|] eqn:E; [|apply nth_error_None in E; lia].
    assert (Hs : skipn pos m = u :: skipn (S pos) m).
    { clear - E. revert pos E; induction m as [|x m IH]; intros pos E; [destruct pos; discriminate|].
      destruct pos as [|pos]; [cbn in E; injection E as ->; reflexivity|]. cbn in E |- *. apply IH; auto. }
    unfold is_blank. destruct ((u =? 32)%N || (u =? 9)%N) eqn:Eb.
    + destruct (IH (S pos)) as (p & -> & Hp & Hq); [lia|lia|]. exists p. split; [auto|]. split; [lia|].
      rewrite Hq, Hs. replace (e - pos) with (S (e - S pos)) by lia. cbn [firstn trim_front]. rewrite Eb. reflexivity.
    + exists pos. split; [auto|]. split; [lia|]. rewrite Hs. replace (e - pos) with (S (e - S pos)) by lia.
      cbn [firstn trim_front]. rewrite Eb. reflexivity.
  - exists pos. split; [auto|]. split; [lia|]. replace (e - pos) with 0 by lia. reflexivity.
Qed.

Lemma trim_ok s : wf s -> exists s', trim max_size s = Some s' /\ wf s' /\ own s' = own s /\ s_size s' = s_size s /\
  s_grow s' = s_grow s /\ contents s' = trim_front (trim_back (contents s)).
Proof.
  intro W. unfold trim. destruct (slength_ok s W) as (-> & H2 & H3 & H4 & W0).
  set (n := length (contents s)) in *. set (s0 := set_len s n) in *.
  pose proof (wf_size _ _ W) as Hs.
  change (s_mem s0) with (s_mem s). rewrite trim_end_ok by lia. rewrite <- H4.
  set (t := trim_back (contents s)). set (e := length t).
  destruct (trim_back_prefix (contents s)) as (k & Hk & Ht). fold t in Ht. fold n in Hk.
  assert (Ee : e = k). { subst e. rewrite Ht, firstn_length. lia. }
  change (s_size s0) with (s_size s). replace (Nat.ltb e (s_size s)) with true by lia.
  destruct (store (s_mem s) e [0%N]) as [m|] eqn:E.
  2:{ rewrite store_some in E by (cbn; lia). discriminate. }
  pose proof (store_length _ _ _ _ E) as Hl.
  assert (Hz : nth_error m e = Some 0%N).
  { rewrite (store_nth _ _ _ _ e E), Nat.ltb_irrefl. cbn [length]. replace (Nat.ltb e (e + 1)) with true by lia.
    rewrite Nat.sub_diag. reflexivity. }
  set (s1 := set_len (set_mem s0 m) e).
  assert (W1 : wf s1).
  { apply wf_update; auto. apply in_firstn_nth. exists e. split; [change (s_size s0) with (s_size s); lia|auto].
    intros _. split; [change (s_size s0) with (s_size s); lia|auto]. }
  assert (Hm1 : s_mem s1 = m) by apply s_mem_set. rewrite Hm1.
  assert (Ht1 : firstn e m = t).
  { rewrite (store_prefix _ _ _ _ e E) by auto. rewrite Ht, H4, firstn_firstn. f_equal. lia. }
  destruct (trim_pos_ok m e (S e) 0) as (pos & -> & Hp & Hq); [lia|lia|].
  rewrite Nat.sub_0_r in Hq. cbn [skipn] in Hq. rewrite Ht1 in Hq.
  assert (Hos : own s1 = own s) by (exact (own_set_mem s0 m)).
  assert (Hss : s_size s1 = s_size s) by (exact (size_set_mem s0 m)).
  assert (Hgs : s_grow s1 = s_grow s) by (exact (grow_set_mem s0 m)).
  destruct (Nat.eqb_spec pos 0) as [E0|E0].
  - exists s1. split; [auto|]. split; [auto|]. split; [auto|]. split; [auto|]. split; [auto|].
    rewrite (contents_known s1 e); [|reflexivity|rewrite Hm1; auto]. rewrite Hm1, <- Hq, E0. cbn [skipn]. rewrite Nat.sub_0_r. reflexivity.
  - change (s_len s1) with e. cbv zeta.
    set (len := e - pos). replace (Nat.ltb (length m) (pos + S len)) with false by lia.
    assert (Hfl : length (firstn (S len) (skipn pos m)) = S len) by (rewrite firstn_length, skipn_length; lia).
    destruct (store m 0 (firstn (S len) (skipn pos m))) as [m2|] eqn:E2.
    2:{ rewrite store_some in E2 by (rewrite Hfl; lia). discriminate. }
    pose proof (store_length _ _ _ _ E2) as Hl2.
    assert (Hu : firstn (S len) m2 = firstn (S len) (skipn pos m)).
    { pose proof (store_upto _ _ _ _ E2) as Hu. rewrite Hfl in Hu. exact Hu. }
    assert (Hz2 : nth_error m2 len = Some 0%N).
    { rewrite <- (nth_error_firstn (S len)) by lia. rewrite Hu, nth_error_firstn by lia. rewrite nth_error_skipn.
      replace (pos + len) with e by lia. auto. }
    exists (set_len (set_mem s1 m2) len). split; [auto|].
    split. { apply wf_update; auto; [rewrite Hm1; auto| |].
      - apply in_firstn_nth. exists len. split; [lia|auto].
      - intros _. split; [lia|auto]. }
    split; [rewrite <- Hos; exact (own_set_mem s1 m2)|].
    split; [rewrite <- Hss; exact (size_set_mem s1 m2)|].
    split; [rewrite <- Hgs; exact (grow_set_mem s1 m2)|].
    rewrite (contents_known _ len); [|reflexivity|rewrite s_mem_len, s_mem_set; auto].
    rewrite s_mem_len, s_mem_set, <- Hq. fold len.
    replace (firstn len m2) with (firstn len (firstn (S len) m2)) by (rewrite firstn_firstn; f_equal; lia).
    rewrite Hu, firstn_firstn. f_equal. lia.
Qed.

(** ** Memory that starts with the text [t] and a NUL *)

Definition begins (m t : list N) : Prop := exists r, m = t ++ 0%N :: r.

Lemma begins_cstr m t : no_nul t -> begins m t -> cstr m = t.
Proof. intros Ht (r & ->). apply cstr_app0; auto. Qed.

Lemma begins_nul m t n : begins m t -> length t < n -> has_nul (firstn n m).
Proof.
  intros (r & ->) H. apply in_firstn_nth. exists (length t). split; [auto|]. rewrite nth_error_app2, Nat.sub_diag by lia. reflexivity.
Qed.

Lemma begins_store m t i m' : begins m t -> length t <= i -> store m i [0%N] = Some m' -> begins m' t.
Proof.
  intros (r & ->) Hi H. apply store_inv in H as [Hl ->]. rewrite firstn_app.
  rewrite firstn_all2 by lia. destruct (i - length t) as [|j] eqn:Ej.
  - cbn [firstn]. rewrite app_nil_r. unfold begins. exists (skipn (i + length [0%N]) (t ++ 0%N :: r)). reflexivity.
  - cbn [firstn]. unfold begins. eexists. rewrite <- app_assoc. reflexivity.
Qed.

(** A string whose length is not known and whose memory begins with [t]. *)
Lemma wf_begins s m t : wfb s -> length m = length (s_mem s) -> begins m t -> length t < s_size s ->
  wf (set_len (set_mem s m) 0) /\ (no_nul t -> contents (set_len (set_mem s m) 0) = t).
Proof.
  intros W Hl Hb Ht. split.
  - apply wf_update_b; auto; [|congruence]. eapply begins_nul; eauto.
  - intro Hn. unfold contents. cbn [s_len set_len]. rewrite s_mem_len, s_mem_set. apply begins_cstr; auto.
Qed.

(** Storing a NUL in the last place, as both vformat_append do. *)
Lemma last_nul s m t : wfb s -> length m = length (s_mem s) -> begins m t -> length t < s_size s ->
  exists m', store m (s_size s - 1) [0%N] = Some m' /\ wf (set_len (set_mem s m') 0) /\
    (no_nul t -> contents (set_len (set_mem s m') 0) = t).
Proof.
  intros W Hl Hb Ht. pose proof (wfb_size _ W) as Hs.
  destruct (store m (s_size s - 1) [0%N]) as [m'|] eqn:E.
  2:{ rewrite store_some in E by (cbn; lia). discriminate. }
  exists m'. split; [auto|]. apply wf_begins; auto.
  - rewrite (store_length _ _ _ _ E). auto.
  - apply (begins_store m t (s_size s - 1)); auto. lia.
Qed.

(** Memory whose units before [size - 1] are given by [t], which fills it, begins with [t] once the last NUL is stored. *)
Lemma last_nul_full s m t : wfb s -> length m = length (s_mem s) -> firstn (s_size s - 1) m = t -> length t = s_size s - 1 ->
  exists m', store m (s_size s - 1) [0%N] = Some m' /\ wf (set_len (set_mem s m') 0) /\
    (no_nul t -> contents (set_len (set_mem s m') 0) = t).
Proof.
  intros W Hl Hb Ht. pose proof (wfb_size _ W) as Hs.
  destruct (store m (s_size s - 1) [0%N]) as [m'|] eqn:E.
  2:{ rewrite store_some in E by (cbn; lia). discriminate. }
  exists m'. split; [auto|]. apply wf_begins; auto; [rewrite (store_length _ _ _ _ E); auto| |lia].
  apply store_inv in E as [_ ->]. unfold begins. rewrite Hb. eexists. reflexivity.
Qed.

Lemma append_begins m len t m' : store m len (t ++ [0%N]) = Some m' -> begins m' (firstn len m ++ t).
Proof. intro H. apply store_inv in H as [_ ->]. unfold begins. eexists. rewrite <- !app_assoc. reflexivity. Qed.

Lemma set_mem_twice s m m' n : set_len (set_mem (set_mem s m) m') n = set_len (set_mem s m') n.
Proof. unfold set_mem. destruct (s_heap s) as [[b x]|] eqn:E; cbn [s_heap]; reflexivity. Qed.

Lemma hrel_own h s h' s1 s2 : hrel h s h' s1 -> own s2 = own s1 -> hrel h s h' s2.
Proof.
  intros (A1 & A2 & A3 & A4 & A5) E. split; [auto|]. split; [unfold hown; rewrite E; auto|]. split; [auto|]. rewrite E. auto.
Qed.

Lemma own_update s m n : own (set_len (set_mem s m) n) = own s.
Proof. exact (own_set_mem s m). Qed.

(** ** format *)

Lemma reserve_set_len h s n e k : reserve max_size fresh h (set_len s k) n e =
  match reserve max_size fresh h s n e with Some (h', s', r) => Some (h', set_len s' k, r) | None => None end.
Proof.
  unfold reserve. cbv zeta. change (s_size (set_len s k)) with (s_size s). change (s_grow (set_len s k)) with (s_grow s).
  change (s_mem (set_len s k)) with (s_mem s). change (s_inl (set_len s k)) with (s_inl s).
  change (free_data (snd (h_alloc h)) (set_len s k)) with (free_data (snd (h_alloc h)) s).
  destruct (Nat.leb (if e then n else S n) (s_size s)); [reflexivity|].
  destruct (negb (s_grow s)); [reflexivity|].
  destruct (Nat.ltb max_size _); [reflexivity|].
  destruct (h_alloc h) as [b h1] eqn:Eh. destruct (Nat.ltb (length (s_mem s)) (s_size s)); [reflexivity|].
  destruct (store _ 0 _) as [m|]; [|reflexivity].
  change (free_data h1 (set_len s k)) with (free_data h1 s). destruct (free_data h1 s); reflexivity.
Qed.


(** *** vformat_append *)

Lemma hrel_own_l h s0 s h' s1 : hrel h s0 h' s1 -> own s0 = own s -> hrel h s h' s1.
Proof. intros (A1 & A2 & A3 & A4 & A5) E. unfold hrel. rewrite <- E. auto. Qed.

Lemma own_set_len s n : own (set_len s n) = own s. Proof. reflexivity. Qed.

Lemma wfb_set_mem s m : wfb s -> length m = length (s_mem s) -> (length m = 1 -> m = s_mem s) -> wfb (set_mem s m).
Proof.
  intros [W1 W2 W3 W4] Hl H1. constructor; rewrite ?s_mem_set, ?size_set_mem, ?inl_set_mem; auto.
  - lia.
  - unfold s_mem in *. destruct (s_heap s) as [[b m']|]; auto. rewrite Hl. auto.
  - unfold s_mem in *. destruct (s_heap s) as [[b m']|]; auto. intro E. rewrite (H1 E). apply W4. rewrite <- Hl. auto.
Qed.

Lemma wfb_set_len s n : wfb s -> wfb (set_len s n).
Proof. intros [W1 W2 W3 W4]. constructor; auto. Qed.

(** What vsnprintf leaves. *)
Lemma vsnprintf_ok m i cap f : i + cap <= length m -> 1 <= cap ->
  exists m', vsnprintf m i cap f = Some m' /\ length m' = length m /\ firstn i m' = firstn i m /\
    begins m' (firstn i m ++ firstn (cap - 1) f).
Proof.
  intros H Hc. unfold vsnprintf. replace (Nat.eqb cap 0) with false by lia.
  destruct (store m i (firstn (cap - 1) f ++ [0%N])) as [m'|] eqn:E.
  2:{ rewrite store_some in E by (rewrite app_length, firstn_length; cbn; lia). discriminate. }
  exists m'. split; [auto|]. split; [eapply store_length; eauto|]. split; [eapply store_prefix; eauto|].
  apply append_begins; auto.
Qed.

Lemma firstn_mono {A} n k (a b : list A) : n <= k -> firstn k a = firstn k b -> firstn n a = firstn n b.
Proof.
  intros Hn H. replace (firstn n a) with (firstn n (firstn k a)) by (rewrite firstn_firstn; f_equal; lia).
  rewrite H, firstn_firstn. f_equal. lia.
Qed.

Lemma begins_mono m m' t n : firstn n m' = firstn n m -> begins m t -> length t < n -> begins m' t.
Proof.
  intros H (r & ->) Hl.
  assert (E : firstn (S (length t)) m' = t ++ [0%N]).
  { rewrite (firstn_mono (S (length t)) n _ _ Hl H). change (t ++ 0%N :: r) with (t ++ [0%N] ++ r). rewrite app_assoc.
    apply firstn_app_exact. rewrite app_length. cbn. lia. }
  exists (skipn (S (length t)) m'). change (0%N :: skipn (S (length t)) m') with ([0%N] ++ skipn (S (length t)) m').
  rewrite app_assoc, <- E. symmetry. apply firstn_skipn.
Qed.

Lemma format8_ok h s f : wf s -> hwf h -> hown h s ->
  let len := length (contents s) in
  exists h' s' r, format_append8 max_size fresh h s f = Some (h', s', r) /\ wf s' /\ hrel h s h' s' /\ s_grow s' = s_grow s /\
    s_size s <= s_size s' /\
    (no_nul (contents s) -> no_nul f -> contents s' = contents s ++ firstn (s_size s' - 1 - len) f) /\
    (r = true <-> len + length f < s_size s') /\
    (s_grow s = false -> s_size s' = s_size s) /\
    (s_grow s = true -> (len + length f + 64) / 64 * 64 <= max_size -> r = true).
Proof.
  intros W Hh Ho len. unfold format_append8.
  destruct (slength_ok s W) as (-> & H2 & H3 & H4 & W0). fold len in H2, H3, H4, W0 |- *.
  set (s0 := set_len s len) in *. change (s_mem s) with (s_mem s0) in *. change (s_size s) with (s_size s0) in *.
  change (s_grow s) with (s_grow s0) in *. change (hown h s) with (hown h s0) in Ho.
  pose proof (wf_size _ _ W0) as Hs0.
  destruct (vsnprintf_ok (s_mem s0) len (s_size s0 - len) f) as (m & -> & Hml & Hmp & Hmb); [lia|lia|].
  rewrite <- H4 in Hmb.
  set (s1 := set_mem s0 m). cbv zeta.
  assert (Hsz1 : s_size s1 = s_size s0) by apply size_set_mem.
  assert (Hg1 : s_grow s1 = s_grow s0) by apply grow_set_mem.
  assert (Ho1 : own s1 = own s0) by apply own_set_mem.
  assert (Hm1 : s_mem s1 = m) by apply s_mem_set.
  assert (Wb1 : wfb s1).
  { apply wfb_set_mem; [apply wf_wfb; auto|auto|]. intro El1. assert (len = 0) by lia.
    destruct Hmb as (rest & ->). replace (s_size s0 - len - 1) with 0 in * by lia. cbn [firstn] in *. rewrite app_nil_r in *.
    destruct (contents s) as [|c0 c1] eqn:Ec; [|cbn in len; subst len; discriminate].
    cbn [app] in *. destruct rest; [|cbn in El1; discriminate]. cbn [length] in Hml.
    destruct (s_mem s0) as [|u0 [|]]; cbn in Hml; try discriminate.
    replace len with 0 in H3 by auto. cbn in H3. injection H3 as ->. reflexivity. }
  (* the end *)
  assert (Hend : forall h2 s2 t, wfb s2 -> hrel h s1 h2 s2 -> s_grow s2 = s_grow s0 -> s_size s0 <= s_size s2 ->
    begins (s_mem s2) t -> t = contents s ++ firstn (s_size s2 - 1 - len) f -> (s_grow s0 = false -> s_size s2 = s_size s0) ->
    (s_grow s0 = true -> (len + length f + 64) / 64 * 64 <= max_size -> len + length f < s_size s2) ->
    exists h' s' r, match store (s_mem s2) (s_size s2 - 1) [0%N] with
            | Some m => Some (h2, set_len (set_mem s2 m) 0,
                              Nat.eqb (len + length f) 0 || Nat.ltb (len + length f) (s_size s2))
            | None => None
            end = Some (h', s', r) /\ wf s' /\ hrel h s h' s' /\ s_grow s' = s_grow s0 /\
    s_size s0 <= s_size s' /\
    (no_nul (contents s) -> no_nul f -> contents s' = contents s ++ firstn (s_size s' - 1 - len) f) /\
    (r = true <-> len + length f < s_size s') /\
    (s_grow s0 = false -> s_size s' = s_size s0) /\
    (s_grow s0 = true -> (len + length f + 64) / 64 * 64 <= max_size -> r = true)).
  { intros h2 s2 t Wb2 Hr2 Hg2 Hsz2 Hb2 Et Hn2 Hy2.
    destruct (last_nul s2 (s_mem s2) t Wb2 eq_refl Hb2) as (m2 & -> & W2 & C2).
    { rewrite Et, app_length, firstn_length. fold len. lia. }
    eexists h2, _, _. split; [reflexivity|]. split; [exact W2|].
    split. { apply (hrel_own _ _ _ s2); [|apply own_set_mem]. eapply hrel_own_l; [exact Hr2|]. rewrite Ho1. reflexivity. }
    change (s_grow (set_len (set_mem s2 m2) 0)) with (s_grow (set_mem s2 m2)).
    change (s_size (set_len (set_mem s2 m2) 0)) with (s_size (set_mem s2 m2)).
    rewrite grow_set_mem, size_set_mem.
    split; [auto|]. split; [auto|]. split.
    { intros N1 N2. rewrite C2, Et; auto. rewrite Et. apply Forall_app. split; auto.
      apply Forall_forall. intros x Hx. apply in_firstn_in in Hx. revert x Hx. apply Forall_forall. auto. }
    split; [split; intro Hx; lia|]. split; [auto|]. intros Hx Hy. specialize (Hy2 Hx Hy). lia. }
  assert (Hhr1 : hrel h s1 h s1).
  { apply hrel_refl; auto. unfold hown. rewrite Ho1. exact Ho. }
  destruct (Nat.leb_spec (s_size s1) (len + length f)) as [Hle|Hgt].
  - assert (Ho1' : hown h s1) by (unfold hown; rewrite Ho1; exact Ho).
    destruct (reserve_core h s1 (len + length f) false Wb1 Hh Ho1') as (h2 & s2 & r2 & -> & Wb2 & Hr2 & Hsz2 & Hm2 & Hl2 & Hg2 & R1 & R2 & R3 & R4 & R5).
    rewrite Hsz1 in Hsz2, Hm2, R2, R4. rewrite Hg1 in R3, R5. destruct r2.
    + specialize (R1 eq_refl).
      pose proof (wfb_size _ Wb2) as Hs2.
      destruct (vsnprintf_ok (s_mem s2) len (s_size s2 - len) f) as (m3 & -> & Hml3 & Hmp3 & Hmb3); [lia|lia|].
      assert (Hpre : firstn len (s_mem s2) = contents s).
      { rewrite H4, <- Hmp, <- Hm1. apply (firstn_mono _ (s_size s0)); [lia|auto]. }
      rewrite Hpre in Hmb3.
      apply (Hend h2 (set_mem s2 m3) (contents s ++ firstn (s_size s2 - len - 1) f)).
      * apply wfb_set_mem; auto. intro. lia.
      * apply (hrel_own _ _ _ s2); [exact Hr2|apply own_set_mem].
      * rewrite grow_set_mem. congruence.
      * rewrite size_set_mem. lia.
      * rewrite s_mem_set. auto.
      * rewrite size_set_mem. f_equal. f_equal. lia.
      * rewrite size_set_mem. intro Hx. rewrite R3 by auto. auto.
      * rewrite size_set_mem. intros _ _. lia.
    + destruct (R2 eq_refl) as [-> Hlt].
      apply (Hend h2 s1 (contents s ++ firstn (s_size s0 - len - 1) f)); auto; rewrite ?Hsz1; auto.
      * rewrite Hm1. auto.
      * f_equal. f_equal. lia.
      * intros Hx Hy. exfalso. replace (S (len + length f) + 63) with (len + length f + 64) in R5 by lia.
        specialize (R5 Hx Hy). discriminate.
  - apply (Hend h s1 (contents s ++ firstn (s_size s0 - len - 1) f)); auto; rewrite ?Hsz1; auto.
    * rewrite Hm1. auto.
    * f_equal. f_equal. lia.
Qed.

Lemma set_mem_set_mem s m m' : set_mem (set_mem s m) m' = set_mem s m'.
Proof. unfold set_mem. destruct (s_heap s) as [[b x]|] eqn:E; cbn [s_heap]; reflexivity. Qed.

Lemma no_nul_firstn n t : no_nul t -> no_nul (firstn n t).
Proof. intro H. apply Forall_forall. intros x Hx. apply in_firstn_in in Hx. revert x Hx. apply Forall_forall. auto. Qed.

Lemma vsnw_ok s c f : wfb s -> length c < s_size s -> firstn (length c) (s_mem s) = c ->
  exists m, vsnwprintf (s_mem s) (length c) (s_size s - 1 - length c) f =
    Some (m, if Nat.leb (length f) (s_size s - 1 - length c) then Some (length f) else None) /\
    length m = length (s_mem s) /\ (length m = 1 -> m = s_mem s) /\ firstn (length c) m = c /\
    exists m', store m (s_size s - 1) [0%N] = Some m' /\ wf (set_len (set_mem s m') 0) /\
      (no_nul c -> no_nul f -> contents (set_len (set_mem s m') 0) = c ++ firstn (s_size s - 1 - length c) f).
Proof.
  intros W Hc Hp. pose proof (wfb_size _ W) as Hs. unfold vsnwprintf.
  destruct (Nat.ltb_spec (length f) (s_size s - 1 - length c)) as [Hlt|Hge].
  - replace (Nat.leb (length f) (s_size s - 1 - length c)) with true by lia.
    destruct (store (s_mem s) (length c) (f ++ [0%N])) as [m|] eqn:E.
    2:{ rewrite store_some in E by (rewrite app_length; cbn; lia). discriminate. }
    pose proof (store_length _ _ _ _ E) as Hl.
    exists m. split; [auto|]. split; [auto|]. split; [intro; lia|].
    split; [rewrite (store_prefix _ _ _ _ (length c) E) by auto; auto|].
    apply append_begins in E. rewrite Hp in E.
    destruct (last_nul s m (c ++ f) W Hl E) as (m' & H1 & H2 & H3); [rewrite app_length; lia|].
    exists m'. split; [auto|]. split; [auto|]. intros N1 N2. rewrite (firstn_all2 f) by lia. apply H3. apply Forall_app; auto.
  - set (t := firstn (s_size s - 1 - length c) f).
    assert (Ht : length t = s_size s - 1 - length c) by (subst t; rewrite firstn_length; lia).
    destruct (store (s_mem s) (length c) t) as [m|] eqn:E.
    2:{ rewrite store_some in E by lia. discriminate. }
    pose proof (store_length _ _ _ _ E) as Hl.
    exists m. split.
    { f_equal. f_equal. destruct (Nat.eqb_spec (length f) (s_size s - 1 - length c)), (Nat.leb_spec (length f) (s_size s - 1 - length c)); auto; lia. }
    split; [auto|]. split.
    { intro E1. apply store_inv in E as [_ ->]. assert (length c = 0) as -> by lia. destruct t; [reflexivity|cbn in Ht; lia]. }
    split; [rewrite (store_prefix _ _ _ _ (length c) E) by auto; auto|].
    destruct (last_nul_full s m (c ++ t) W Hl) as (m' & H1 & H2 & H3).
    + apply store_upto in E. rewrite Hp in E. rewrite <- E. f_equal. lia.
    + rewrite app_length. lia.
    + exists m'. split; [auto|]. split; [auto|]. intros N1 N2. apply H3. apply Forall_app. split; [auto|]. apply no_nul_firstn; auto.
Qed.

Lemma format16_ok h s f : wf s -> hwf h -> hown h s ->
  let len := length (contents s) in
  exists h' s' r, format_append16 max_size fresh h s f = Some (h', s', r) /\ wf s' /\ hrel h s h' s' /\ s_grow s' = s_grow s /\
    s_size s <= s_size s' /\
    (no_nul (contents s) -> no_nul f -> contents s' = contents s ++ firstn (s_size s' - 1 - len) f) /\
    (s_grow s = true -> (r = true <-> len + length f < s_size s')) /\
    (s_grow s = false -> (r = true <-> len + length f < s_size s' \/ 1 <= len)) /\
    (s_grow s = false -> s_size s' = s_size s) /\
    (s_grow s = true -> (len + length f + 64) / 64 * 64 <= max_size -> r = true).
Proof.
  intros W Hh Ho len. unfold format_append16.
  destruct (slength_ok s W) as (-> & H2 & H3 & H4 & W0). fold len in H2, H3, H4, W0 |- *.
  set (s0 := set_len s len) in *. change (s_mem s) with (s_mem s0) in *. change (s_size s) with (s_size s0) in *.
  change (s_grow s) with (s_grow s0) in *. change (hown h s) with (hown h s0) in Ho.
  pose proof (wf_size _ _ W0) as Hs0.
  destruct (vsnw_ok s0 (contents s) f (wf_wfb _ W0)) as (m & Em & Hml & Hm1 & Hmp & m' & Em' & Wm' & Cm'); [exact H2|auto|].
  fold len in Em, Hmp, Cm'. rewrite Em. cbv zeta.
  rewrite s_mem_set, size_set_mem, grow_set_mem, Em', set_mem_set_mem.
  assert (Wb1 : wfb (set_mem s0 m)) by (apply wfb_set_mem; [apply wf_wfb|..]; auto).
  assert (Hfix : forall h2 b, hrel h (set_mem s0 m) h2 (set_mem s0 m) -> (s_grow s0 = true -> (b = true <-> len + length f < s_size s0)) ->
    (s_grow s0 = false -> (b = true <-> len + length f < s_size s0 \/ 1 <= len)) ->
    (s_grow s0 = true -> (len + length f + 64) / 64 * 64 <= max_size -> b = true) ->
    exists h' s' r, Some (h2, set_len (set_mem s0 m') 0, b) = Some (h', s', r) /\ wf s' /\ hrel h s h' s' /\ s_grow s' = s_grow s0 /\
    s_size s0 <= s_size s' /\
    (no_nul (contents s) -> no_nul f -> contents s' = contents s ++ firstn (s_size s' - 1 - len) f) /\
    (s_grow s0 = true -> (r = true <-> len + length f < s_size s')) /\
    (s_grow s0 = false -> (r = true <-> len + length f < s_size s' \/ 1 <= len)) /\
    (s_grow s0 = false -> s_size s' = s_size s0) /\
    (s_grow s0 = true -> (len + length f + 64) / 64 * 64 <= max_size -> r = true)).
  { intros h2 b B0 B1 B2 B3. eexists h2, _, b. split; [reflexivity|]. split; [auto|].
    change (s_grow (set_len (set_mem s0 m') 0)) with (s_grow (set_mem s0 m')).
    change (s_size (set_len (set_mem s0 m') 0)) with (s_size (set_mem s0 m')).
    rewrite grow_set_mem, size_set_mem.
    split. { apply (hrel_own _ _ _ (set_mem s0 m)); [|rewrite own_set_len, !own_set_mem; reflexivity].
      eapply hrel_own_l; [exact B0|]. rewrite own_set_mem. reflexivity. }
    split; [auto|]. split; [auto|]. split; [auto|]. split; [auto|]. split; [auto|]. split; auto. }
  assert (Hrr : hrel h (set_mem s0 m) h (set_mem s0 m)).
  { apply hrel_refl; auto. unfold hown. rewrite own_set_mem. exact Ho. }
  destruct (Nat.leb_spec (length f) (s_size s0 - 1 - len)) as [Hle|Hgt].
  { apply Hfix; auto; intros; lia. }
  destruct (s_grow s0) eqn:Eg.
  2:{ apply Hfix; [auto|discriminate| |discriminate]. intros _. lia. }
  assert (Ho1 : hown h (set_mem s0 m)) by (unfold hown; rewrite own_set_mem; exact Ho).
  destruct (reserve_core h (set_mem s0 m) (len + length f) false Wb1 Hh Ho1) as (h2 & s2 & r2 & -> & Wb2 & Hr2 & Hsz2 & Hm2 & Hl2 & Hg2 & R1 & R2 & R3 & R4 & R5).
  rewrite size_set_mem in Hsz2, Hm2, R2, R4. rewrite grow_set_mem, Eg in Hg2, R3, R5. rewrite s_mem_set in Hm2.
  destruct r2.
  - specialize (R1 eq_refl).
    destruct (vsnw_ok s2 (contents s) f Wb2) as (m3 & Em3 & Hml3 & Hm13 & Hmp3 & m4 & Em4 & Wm4 & Cm4).
    { fold len. lia. }
    { fold len. rewrite <- Hmp. apply (firstn_mono _ (s_size s0)); [lia|auto]. }
    fold len in Em3, Hmp3, Cm4. rewrite Em3. rewrite s_mem_set, size_set_mem, Em4, set_mem_set_mem.
    replace (Nat.leb (length f) (s_size s2 - 1 - len)) with true by lia.
    eexists h2, _, _. split; [reflexivity|]. split; [exact Wm4|].
    change (s_grow (set_len (set_mem s2 m4) 0)) with (s_grow (set_mem s2 m4)).
    change (s_size (set_len (set_mem s2 m4) 0)) with (s_size (set_mem s2 m4)).
    rewrite grow_set_mem, size_set_mem.
    split. { apply (hrel_own _ _ _ s2); [|rewrite own_set_len; apply own_set_mem]. eapply hrel_own_l; [exact Hr2|]. rewrite own_set_mem. reflexivity. }
    split; [auto|]. split; [lia|]. split; [auto|]. split; [intros _; lia|]. split; [discriminate|].
    split; [discriminate|]. intros; lia.
  - destruct (R2 eq_refl) as [-> Hlt].
    rewrite s_mem_set, size_set_mem, Em', set_mem_set_mem.
    apply Hfix; auto; [intros _; lia|discriminate|].
    intros _ Hy. replace (S (len + length f) + 63) with (len + length f + 64) in R5 by lia. specialize (R5 eq_refl Hy). discriminate.
Qed.

(** *** conversions *)
Lemma converted_ok h s full : wf s -> hwf h -> hown h s ->
  let len := length (contents s) in
  exists h' s' r, append_converted max_size fresh h s full = Some (h', s', r) /\ wf s' /\ hrel h s h' s' /\ s_grow s' = s_grow s /\
    s_size s <= s_size s' /\
    (no_nul (contents s) -> no_nul full -> contents s' = contents s ++ firstn (s_size s' - 1 - len) full) /\
    r = Nat.min (length full) (s_size s' - 1 - len) /\
    (s_grow s = false -> s_size s' = s_size s) /\
    (s_grow s = true -> (len + length full + 64) / 64 * 64 <= max_size -> r = length full).
Proof.
  intros W Hh Ho len. unfold append_converted.
  destruct (slength_ok s W) as (-> & H2 & H3 & H4 & W0). fold len in H2, H3, H4, W0 |- *.
  set (s0 := set_len s len) in *.
  assert (Hres : exists h1 s1 r1, (if s_grow s0 then reserve max_size fresh h s0 (len + length full) false else Some (h, s0, false)) = Some (h1, s1, r1)
     /\ wf s1 /\ hrel h s0 h1 s1 /\ s_grow s1 = s_grow s /\ s_size s <= s_size s1 /\
     firstn (s_size s) (s_mem s1) = firstn (s_size s) (s_mem s) /\ (s_grow s = false -> s_size s1 = s_size s) /\
     (s_grow s = true -> (len + length full + 64) / 64 * 64 <= max_size -> len + length full < s_size s1)).
  { change (s_grow s0) with (s_grow s). destruct (s_grow s) eqn:Eg.
    - destruct (reserve_ok h s0 (len + length full) false W0 Hh Ho) as (h1 & s1 & r1 & H1 & W1 & Hr & Hsz & Hm & Hl & Hg & R1 & R2 & R3 & R4 & R5).
      exists h1, s1, r1. split; [auto|]. split; [auto|]. split; [auto|]. split; [rewrite Hg; exact Eg|]. split; [auto|]. split; [auto|].
      split; [discriminate|]. intros _ Hy. replace (S (len + length full) + 63) with (len + length full + 64) in R5 by lia.
      change (s_grow s0) with (s_grow s) in R5. specialize (R1 (R5 Eg Hy)). lia.
    - exists h, s0, false. split; [auto|]. split; [auto|]. split; [apply hrel_refl; auto|]. split; [auto|]. split; [auto|].
      split; [auto|]. split; [auto|]. discriminate. }
  destruct Hres as (h1 & s1 & r1 & -> & W1 & Hr & Hg & Hsz & Hm & Hns & Hgs). cbv zeta.
  change (s_size (set_len s1 0)) with (s_size s1). change (s_mem (set_len s1 0)) with (s_mem s1).
  replace (Nat.eqb (s_size s1 - len) 0) with false by lia. pose proof (wf_size _ _ W1) as Hs1.
  set (t := firstn (s_size s1 - len - 1) full).
  assert (Ht : length t <= s_size s1 - len - 1) by (subst t; rewrite firstn_length; lia).
  destruct (store (s_mem s1) len (t ++ [0%N])) as [m|] eqn:E.
  2:{ rewrite store_some in E by (rewrite app_length; cbn; lia). discriminate. }
  pose proof (store_length _ _ _ _ E) as Hl. apply append_begins in E.
  assert (Hp : firstn len (s_mem s1) = contents s).
  { rewrite H4. apply (firstn_mono _ (s_size s)); [lia|auto]. }
  rewrite Hp in E.
  assert (Eq : set_mem (set_len s1 0) m = set_len (set_mem s1 m) 0).
  { unfold set_mem, set_len. cbn [s_heap]. destruct (s_heap s1) as [[b x]|]; reflexivity. }
  rewrite Eq.
  destruct (wf_begins s1 m (contents s ++ t) (wf_wfb _ W1) Hl E) as [Wm Cm]; [rewrite app_length; fold len; lia|].
  eexists h1, _, _. split; [reflexivity|]. split; [exact Wm|].
  change (s_grow (set_len (set_mem s1 m) 0)) with (s_grow (set_mem s1 m)).
  change (s_size (set_len (set_mem s1 m) 0)) with (s_size (set_mem s1 m)).
  rewrite grow_set_mem, size_set_mem.
  split. { apply (hrel_own _ _ _ s1); [|rewrite own_set_len; apply own_set_mem]. eapply hrel_own_l; [exact Hr|]. reflexivity. }
  split; [auto|]. split; [auto|]. split.
  { intros N1 N2. rewrite Cm; [|apply Forall_app; split; [auto|apply no_nul_firstn; auto]]. f_equal. subst t. f_equal. lia. }
  split; [f_equal; lia|]. split; [auto|]. intros Hx Hy. specialize (Hgs Hx Hy). lia.
Qed.

Lemma copy_ok h s src : wf s -> hwf h -> hown h s -> has_nul src ->
  exists h' s' r, copy max_size fresh h s src = Some (h', s', r) /\ wf s' /\ hrel h s h' s' /\ s_grow s' = s_grow s /\
    s_size s <= s_size s' /\
    contents s' = firstn (s_size s' - 1) (cstr src) /\
    (r = true <-> length (cstr src) < s_size s') /\
    (s_grow s = false -> s_size s' = s_size s) /\
    (s_grow s = true -> (length (cstr src) + 64) / 64 * 64 <= max_size -> r = true).
Proof.
  intros W Hh Ho Hsrc. unfold copy. destruct (clear_ok s W) as (s0 & -> & W0 & C0 & E0 & Z0 & G0).
  assert (Ho0 : hown h s0) by (unfold hown; rewrite E0; exact Ho).
  destruct (concat_ok h s0 src None W0 Hh Ho0 Hsrc) as (h' & s' & r & -> & W' & Hr & Hg & Hsz & C' & R1 & R2 & R3).
  rewrite C0 in *. cbn [length app plus] in *.
  exists h', s', r. split; [auto|]. split; [auto|]. split; [eapply hrel_own_l; eauto|]. split; [congruence|]. split; [lia|].
  split. { rewrite C'. rewrite firstn_firstn. rewrite Nat.sub_0_r.
    destruct (Nat.min_spec (s_size s' - 1) (length (cstr src))) as [[A ->]|[A ->]]; [reflexivity|].
    rewrite !firstn_all2 by lia. reflexivity. }
  split; [auto|]. split; [rewrite G0 in R2; intro; rewrite R2 by auto; auto|]. rewrite G0 in R3. auto.
Qed.

Lemma write_ok s us : wf s -> length us <= s_size s -> has_nul us ->
  exists m, store (s_mem s) 0 us = Some m /\ wf (set_len (set_mem s m) 0) /\ contents (set_len (set_mem s m) 0) = cstr us.
Proof.
  intros W Hl Hn. pose proof (wf_size _ _ W) as Hs.
  destruct (store (s_mem s) 0 us) as [m|] eqn:E.
  2:{ rewrite store_some in E by lia. discriminate. }
  exists m. split; [auto|]. pose proof (store_length _ _ _ _ E) as Hlm.
  destruct (strlen_cstr us Hn) as (_ & B & C).
  assert (Hb : begins m (cstr us)).
  { apply store_inv in E as [_ ->]. cbn [firstn app plus]. unfold begins.
    exists (skipn (S (length (cstr us))) us ++ skipn (length us) (s_mem s)).
    change (0%N :: skipn (S (length (cstr us))) us ++ skipn (length us) (s_mem s)) with ((0%N :: skipn (S (length (cstr us))) us) ++ skipn (length us) (s_mem s)).
    rewrite app_assoc. f_equal. revert B. rewrite C at 2 3. generalize (length (cstr us)). clear. intros n. revert n.
    induction us as [|u us IH]; intros n Hz; [destruct n; discriminate|]. destruct n as [|n]; [cbn in Hz; injection Hz as ->; reflexivity|].
    cbn [firstn app skipn]. f_equal. apply IH. exact Hz. }
  destruct (wf_begins s m (cstr us) (wf_wfb _ W) Hlm Hb) as [Wm Cm].
  { assert (length (cstr us) < length us) by (apply nth_error_Some; congruence). lia. }
  split; [auto|]. apply Cm. apply cstr_no_nul.
Qed.

(** ** One operation *)
Lemma do_op_ok h s o : wf s -> hwf h -> hown h s -> op_ok s o ->
  exists h' s', do_op max_size fresh h s o = Some (h', s') /\ wf s' /\ hrel h s h' s' /\ s_grow s' = s_grow s.
Proof.
  intros W Hh Ho Hok. destruct o as [n e| | |n| |src n|src n|src|f|f|f|us]; cbn [do_op op_ok] in *.
  - destruct (reserve_ok h s n e W Hh Ho) as (h' & s' & r & -> & W' & Hr & _ & _ & _ & Hg & _). exists h', s'. cbn [drop]. auto.
  - destruct (slength_ok s W) as (-> & _ & _ & _ & W0). eexists _, _. split; [reflexivity|]. split; [auto|]. split; [|auto].
    apply hrel_refl; auto.
  - destruct (clear_ok s W) as (s' & -> & W' & _ & Eo & _ & Hg). cbn [keep]. exists h, s'. split; [auto|]. split; [auto|]. split; [|auto].
    apply hrel_refl; auto.
  - destruct (truncate_ok s n W) as (s' & -> & W' & Eo & _ & Hg & _). cbn [keep]. exists h, s'. split; [auto|]. split; [auto|]. split; [|auto].
    apply hrel_refl; auto.
  - destruct (trim_ok s W) as (s' & -> & W' & Eo & _ & Hg & _). cbn [keep]. exists h, s'. split; [auto|]. split; [auto|]. split; [|auto].
    apply hrel_refl; auto.
  - destruct (concat_ok h s src n W Hh Ho) as (h' & s' & r & -> & W' & Hr & Hg & _); [destruct n; auto|]. exists h', s'. cbn [drop]. auto.
  - destruct (concat_nt_ok h s src n W Hh Ho) as (h' & s' & r & -> & W' & Hr & Hg & _); [auto|]. exists h', s'. cbn [drop]. auto.
  - destruct (copy_ok h s src W Hh Ho) as (h' & s' & r & -> & W' & Hr & Hg & _); [auto|]. exists h', s'. cbn [drop]. auto.
  - destruct (format8_ok h s f W Hh Ho) as (h' & s' & r & -> & W' & Hr & Hg & _). exists h', s'. cbn [drop]. auto.
  - destruct (format16_ok h s f W Hh Ho) as (h' & s' & r & -> & W' & Hr & Hg & _). exists h', s'. cbn [drop]. auto.
  - destruct (converted_ok h s f W Hh Ho) as (h' & s' & r & -> & W' & Hr & Hg & _). exists h', s'. cbn [drop]. auto.
  - destruct Hok as [H1 H2]. destruct (write_ok s us W H1 H2) as (m & -> & W' & _). eexists _, _. split; [reflexivity|]. split; [auto|].
    split; [|apply grow_set_mem]. apply hrel_refl; auto. rewrite own_set_len. apply own_set_mem.
Qed.

(** ** Several concats *)
Lemma concat_all_ok ps : forall h s, wf s -> hwf h -> hown h s -> Forall no_nul ps ->
  let len := length (contents s) in
  exists h' s', concat_all max_size fresh h s ps = Some (h', s') /\ wf s' /\ hrel h s h' s' /\ s_grow s' = s_grow s /\
    (s_grow s = false -> s_size s' = s_size s /\ contents s' = contents s ++ firstn (s_size s - 1 - len) (List.concat ps)) /\
    (s_grow s = true -> (len + length (List.concat ps) + 64) / 64 * 64 <= max_size -> contents s' = contents s ++ List.concat ps).
Proof.
  induction ps as [|p ps IH]; intros h s W Hh Ho Hps len.
  { exists h, s. split; [reflexivity|]. split; [auto|]. split; [apply hrel_refl; auto|]. split; [auto|]. cbn [List.concat].
    rewrite firstn_nil, app_nil_r. auto. }
  cbn [concat_all List.concat]. pose proof (Forall_inv Hps) as Hp. pose proof (Forall_inv_tail Hps) as Hps'.
  destruct (concat_ok h s p (Some (length p)) W Hh Ho (or_introl (le_n _))) as (h1 & s1 & r1 & -> & W1 & Hr & Hg & Hsz & C1 & R1 & R2 & R3).
  fold len in C1, R1, R3.
  assert (Ec : firstn (length p) (cstr p) = p).
  { rewrite <- (app_nil_r p) at 2. rewrite cstr_app by auto. cbn [cstr]. rewrite app_nil_r. apply firstn_all. }
  rewrite Ec in C1.
  destruct (IH h1 s1 W1 (proj1 Hr) (proj1 (proj2 Hr)) Hps') as (h2 & s2 & -> & W2 & Hr2 & Hg2 & F2 & T2).
  exists h2, s2. split; [auto|]. split; [auto|]. split; [eapply hrel_trans; eauto|]. split; [congruence|].
  destruct (slength_ok s W) as (_ & Hlt & _).
  split.
  - intro Hf. rewrite Hg in F2. destruct (F2 Hf) as [F3 F4]. rewrite F3, R2 by auto. split; [auto|].
    rewrite F4, C1, R2 by auto. rewrite <- app_assoc. f_equal. rewrite app_length, firstn_length. fold len.
    rewrite firstn_app. f_equal. f_equal. fold len in Hlt. lia.
  - rewrite app_length. intros Ht Hlim. rewrite Hg in T2.
    assert (Hlim1 : (len + length p + 64) / 64 * 64 <= max_size) by lia.
    specialize (R3 Ht Hlim1). apply R1 in R3. rewrite firstn_all2 in C1 by lia.
    rewrite T2; auto; rewrite C1.
    + rewrite <- app_assoc. reflexivity.
    + rewrite app_length. fold len. rewrite <- Nat.add_assoc with (n := len). lia.
Qed.

Definition unquoted (u : N) : bool := negb (u =? 34)%N.
Lemma strip_pieces_ok fuel src : length src < fuel -> List.concat (strip_pieces fuel src) = filter unquoted src /\
  (no_nul src -> Forall no_nul (strip_pieces fuel src)).
Proof.
  revert src; induction fuel as [|k IH]; intros src Hf; [lia|].
  destruct src as [|u0 src0]; [split; [reflexivity|constructor]|].
  change (strip_pieces (S k) (u0 :: src0)) with (let '(a, b) := qspan (u0 :: src0) in a :: strip_pieces k (qskip b)).
  assert (Hsp : forall l, exists a b, qspan l = (a, b) /\ l = a ++ b /\ Forall (fun u => unquoted u = true) a /\
     match b with [] => True | u :: _ => u = 34%N end).
  { induction l as [|u l (a & b & E & El & Ha & Hb)]; [exists [], []; cbn; auto|]. cbn [qspan].
    destruct (N.eqb_spec u 34) as [->|Hu]; [exists [], (34%N :: l); auto|].
    rewrite E. exists (u :: a), b. split; [auto|]. split; [cbn; congruence|]. split; [|auto]. constructor; auto.
    unfold unquoted. lia. }
  assert (Hsk : forall l, filter unquoted (qskip l) = filter unquoted l /\ length (qskip l) <= length l /\
     (no_nul l -> no_nul (qskip l)) /\ (forall l', l = 34%N :: l' -> length (qskip l) < length l)).
  { induction l as [|u l (A & B & C & D)]; [cbn; split; [auto|split; [auto|split; [auto|discriminate]]]|].
    cbn [qskip]. destruct (N.eqb_spec u 34) as [->|Hu].
    - cbn [filter]. change (unquoted 34) with false. cbv iota. split; [auto|]. cbn [length]. split; [lia|].
      split; [intro H; inversion_clear H; auto|]. intros l' _. lia.
    - split; [auto|]. split; [auto|]. split; [auto|]. intros l' E. congruence. }
  destruct (Hsp (u0 :: src0)) as (a & b & -> & El & Ha & Hb).
  destruct (Hsk b) as (A & B & C & D).
  assert (Hlt : length (qskip b) < k).
  { pose proof (f_equal (@length N) El) as Hll. rewrite app_length in Hll. cbn [length] in Hll, Hf.
    destruct b as [|v b]; [cbn; destruct a; cbn in *; lia|]. subst v. specialize (D b eq_refl). lia. }
  destruct (IH (qskip b) Hlt) as [I1 I2]. rewrite El. cbn [List.concat]. split.
  - rewrite I1, A, filter_app. f_equal. clear - Ha. induction Ha as [|x a Hx Ha IHa]; [reflexivity|]. cbn [filter]. rewrite Hx. f_equal. auto.
  - intro Hn. apply Forall_app in Hn as [N1 N2]. constructor; auto.
Qed.

Lemma strip_quotes_ok h s src : wf s -> hwf h -> hown h s -> no_nul src ->
  let len := length (contents s) in
  exists h' s', strip_quotes max_size fresh h s src = Some (h', s') /\ wf s' /\ hrel h s h' s' /\ s_grow s' = s_grow s /\
    (s_grow s = false -> s_size s' = s_size s /\ contents s' = contents s ++ firstn (s_size s - 1 - len) (filter unquoted src)) /\
    (s_grow s = true -> (len + length src + 64) / 64 * 64 <= max_size -> contents s' = contents s ++ filter unquoted src).
Proof.
  intros W Hh Ho Hn len. unfold strip_quotes.
  destruct (slength_ok s W) as (-> & H2 & H3 & H4 & W0). fold len in H2, H3, H4, W0 |- *.
  set (s0 := set_len s len) in *.
  destruct (reserve_ok h s0 (len + length src) false W0 Hh Ho) as (h1 & s1 & r1 & -> & W1 & Hr & Hsz & Hm & Hl & Hg & R1 & R2 & R3 & R4 & R5).
  assert (C1 : contents s1 = contents s) by (rewrite <- (contents_set_len s W); apply reserve_contents; auto).
  destruct (strip_pieces_ok (S (length src)) src) as [P1 P2]; [lia|].
  destruct (concat_all_ok (strip_pieces (S (length src)) src) h1 s1 W1 (proj1 Hr) (proj1 (proj2 Hr)) (P2 Hn)) as (h2 & s2 & -> & W2 & Hr2 & Hg2 & F2 & T2).
  change (s_grow s0) with (s_grow s) in *. change (s_size s0) with (s_size s) in *.
  rewrite C1, P1 in *. fold len in F2, T2.
  exists h2, s2. split; [auto|]. split; [auto|]. split. { eapply hrel_trans; eauto. }
  split; [congruence|]. rewrite Hg in F2, T2. split.
  - intro Hf. rewrite R3 in F2 by auto. apply F2; auto.
  - intros Ht Hlim. apply T2; auto.
    assert (length (filter unquoted src) <= length src).
    { clear. induction src as [|u l IH]; [auto|]. cbn [filter length]. destruct (unquoted u); cbn [length]; lia. }
    lia.
Qed.

Lemma concat_spaces_ok num : forall fuel h s, num < fuel -> wf s -> hwf h -> hown h s ->
  let len := length (contents s) in
  exists h' s', concat_spaces max_size fresh fuel h s num = Some (h', s') /\ wf s' /\ hrel h s h' s' /\ s_grow s' = s_grow s /\
    (s_grow s = false -> s_size s' = s_size s /\ contents s' = contents s ++ repeat 32%N (Nat.min num (s_size s - 1 - len))) /\
    (s_grow s = true -> (len + num + 64) / 64 * 64 <= max_size -> contents s' = contents s ++ repeat 32%N num).
Proof.
  induction num as [num IHn] using lt_wf_ind. intros fuel h s Hf W Hh Ho len. destruct fuel as [|k]; [lia|]. cbn [concat_spaces].
  destruct (Nat.eqb_spec num 0) as [->|Hnz].
  { exists h, s. split; [auto|]. split; [auto|]. split; [apply hrel_refl; auto|]. split; [auto|]. cbn [Nat.min repeat]. rewrite app_nil_r. auto. }
  cbv zeta. set (c := Nat.min num 32).
  assert (Hsrc : c <= length (repeat 32%N 32 ++ [0%N])) by (rewrite app_length, repeat_length; cbn [length]; lia).
  destruct (concat_ok h s (repeat 32%N 32 ++ [0%N]) (Some c) W Hh Ho (or_introl Hsrc)) as (h1 & s1 & r1 & -> & W1 & Hr & Hg & Hsz & C1 & R1 & R2 & R3).
  fold len in C1, R1, R3.
  assert (Ec : firstn c (cstr (repeat 32%N 32 ++ [0%N])) = repeat 32%N c).
  { rewrite cstr_app0 by (apply Forall_forall; intros x Hx; apply repeat_spec in Hx; lia).
    replace 32 with (c + (32 - c)) by lia. rewrite repeat_app. apply firstn_app_exact. rewrite repeat_length. auto. }
  rewrite Ec in C1.
  destruct (IHn (num - c)) with (fuel := k) (h := h1) (s := s1) as (h2 & s2 & -> & W2 & Hr2 & Hg2 & F2 & T2); auto; try lia.
  { apply Hr. } { apply Hr. }
  exists h2, s2. split; [auto|]. split; [auto|]. split; [eapply hrel_trans; eauto|]. split; [congruence|].
  destruct (slength_ok s W) as (_ & Hlt & _). fold len in Hlt.
  assert (Efr : forall a b, firstn a (repeat 32%N b) = repeat 32%N (Nat.min a b)).
  { clear. intros a; induction a as [|a IHa]; intro b; [reflexivity|]. destruct b; [reflexivity|]. cbn. f_equal. apply IHa. }
  rewrite Efr in C1. split.
  - intro Hfl. rewrite Hg in F2. destruct (F2 Hfl) as [F3 F4]. rewrite F3, R2 by auto. split; [auto|].
    rewrite F4, C1, R2 by auto. rewrite <- app_assoc, <- repeat_app. f_equal. f_equal.
    rewrite app_length, repeat_length. fold len. lia.
  - intros Ht Hlim. rewrite Hg in T2.
    assert (Hlim1 : (len + c + 64) / 64 * 64 <= max_size) by lia.
    specialize (R3 Ht Hlim1). apply R1 in R3. rewrite Nat.min_r in C1 by lia.
    rewrite T2; auto; rewrite C1.
    + rewrite <- app_assoc, <- repeat_app. f_equal. f_equal. lia.
    + rewrite app_length, repeat_length. fold len. replace (len + c + (num - c)) with (len + num) by lia. auto.
Qed.

(** ** Several strings *)

Definition inv2 (h : heap) (os : list nat) : Prop := hwf h /\ NoDup os /\ forall x, In x (h_live h) <-> In x os.

Lemma inv2_perm h os os' : Permutation os os' -> inv2 h os -> inv2 h os'.
Proof.
  intros P (A & B & C). split; [auto|]. split; [eapply Permutation_NoDup; eauto|]. intro x. rewrite C.
  split; [apply Permutation_in; auto|apply Permutation_in, Permutation_sym; auto].
Qed.

Lemma NoDup_app_r {A} (a b : list A) : NoDup (a ++ b) -> NoDup b.
Proof. induction a as [|x a IH]; intro H; [auto|]. inversion_clear H. auto. Qed.
Lemma NoDup_app_disj {A} (a b : list A) x : NoDup (a ++ b) -> In x a -> ~ In x b.
Proof.
  induction a as [|y a IH]; intros H Hx; [destruct Hx|]. inversion_clear H. destruct Hx as [->|Hx]; [|auto].
  intro Hb. apply H0. apply in_or_app. auto.
Qed.

Lemma inv2_upd h s h' s' rest : inv2 h (own s ++ rest) -> hrel h s h' s' -> inv2 h' (own s' ++ rest).
Proof.
  intros (A & B & C) (R1 & R2 & R3 & R4 & R5). split; [auto|].
  assert (Hin : forall x, In x rest <-> In x (h_live h) /\ ~ In x (own s)).
  { intro x. rewrite C, in_app_iff. split; [|intros [[H|H] Hn]; tauto]. intro Hx. split; [auto|]. intro Ho.
    exact (NoDup_app_disj _ _ _ B Ho Hx). }
  split.
  - destruct R5 as [->|(b & -> & Hb)]; [auto|]. cbn [app]. constructor; [|eapply NoDup_app_r; eauto].
    intro Hx. apply Hin in Hx as [Hx _]. apply A in Hx. lia.
  - intro x. rewrite R4, in_app_iff, <- Hin. tauto.
Qed.

Lemma inv2_hown h s rest : inv2 h (own s ++ rest) -> hown h s.
Proof. intros (A & B & C) x Hx. apply C. apply in_or_app. auto. Qed.

Lemma inv2_free h s rest : inv2 h (own s ++ rest) -> exists h', free_data h s = Some h' /\ inv2 h' rest.
Proof.
  intro I. destruct (free_data_ok h s (proj1 I) (inv2_hown _ _ _ I)) as (h' & -> & H1 & H2 & H3). exists h'. split; [auto|].
  destruct I as (A & B & C). split; [auto|]. split; [eapply NoDup_app_r; eauto|]. intro x. rewrite H3, C, in_app_iff.
  split; [intros [[H|H] Hn]; tauto|]. intro Hx. split; [auto|]. intro Ho. exact (NoDup_app_disj _ _ _ B Ho Hx).
Qed.

Lemma inv2_free1 h b rest : inv2 h (b :: rest) -> exists h', h_free h b = Some h' /\ inv2 h' rest.
Proof.
  intro I. apply (inv2_free h (mkS [] (Some (b, [])) 0 0 false) rest). exact I.
Qed.

Lemma attach_ok h s b m size rest : wf s -> inv2 h (own s ++ b :: rest) -> 1 <= size <= length m -> size <= max_size ->
  has_nul (firstn size m) ->
  exists h' s', attach max_size fresh h s b m size = Some (h', s') /\ wf s' /\ inv2 h' (own s' ++ rest) /\ s_grow s' = s_grow s /\
    (s_grow s = true -> s' = mkS (s_inl s) (Some (b, m)) size 0 true) /\
    (s_grow s = false -> contents s' = firstn (s_size s - 1) (firstn size (cstr m))).
Proof.
  intros W I Hsz Hmx Hn. unfold attach. destruct (s_grow s) eqn:Eg.
  - destruct (inv2_free h s (b :: rest) I) as (h' & -> & I'). eexists h', _. split; [reflexivity|].
    split. { destruct W as [W1 W2 W3 W4 W5 W6]. constructor; cbn [s_size s_inl s_len s_heap]; unfold s_mem; cbn [s_heap]; auto. congruence. }
    split; [exact I'|]. split; [auto|]. split; [auto|discriminate].
  - destruct (clear_ok s W) as (s0 & -> & W0 & C0 & E0 & Z0 & G0).
    rewrite <- E0 in I.
    destruct (concat_ok h s0 m (Some size) W0 (proj1 I) (inv2_hown _ _ _ I)) as (h1 & s1 & r & -> & W1 & Hr & Hg & Hs & C1 & _ & R2 & _); [left; lia|].
    assert (I1 : inv2 h1 (own s1 ++ b :: rest)) by (eapply inv2_upd; eauto).
    destruct (inv2_free1 h1 b (own s1 ++ rest)) as (h2 & -> & I2).
    { eapply inv2_perm; [|exact I1]. apply Permutation_sym, Permutation_middle. }
    exists h2, s1. split; [auto|]. split; [auto|]. split; [auto|]. split; [congruence|]. split; [discriminate|].
    intros _. rewrite C1, C0. cbn [length app]. rewrite R2 by congruence. rewrite Z0. f_equal. lia.
Qed.

Lemma reset_own_trunc r : wfb r -> exists r', truncate (reset_own r) 0 = Some r' /\ wf r' /\ own r' = [] /\ contents r' = [] /\
  s_grow r' = s_grow r.
Proof.
  intros [W1 W2 W3 W4]. unfold truncate, reset_own; cbn [s_size]. replace (Nat.leb (length (s_inl r)) 0) with false by lia.
  unfold s_mem at 1; cbn [s_heap]. rewrite store_some by (cbn; lia). cbn [firstn app plus length]. unfold set_mem, set_len; cbn [s_heap s_inl s_size s_len s_grow].
  eexists. split; [reflexivity|].
  destruct (s_inl r) as [|u l]; [cbn in W3; lia|]. cbn [skipn length] in *.
  split; [|split; [reflexivity|split; reflexivity]].
  constructor; cbn [s_size s_inl s_len]; unfold s_mem; cbn [s_heap s_inl length firstn]; auto; try lia; intros; left; reflexivity.
Qed.

Lemma move_str_ok h s r rest : wf s -> wf r -> inv2 h (own s ++ own r ++ rest) -> s_grow s = s_grow r ->
  exists h' s' r', move_str max_size fresh h s r = Some (h', s', r') /\ wf s' /\ wf r' /\ inv2 h' (own s' ++ own r' ++ rest) /\
    s_grow s' = s_grow s /\ s_grow r' = s_grow r /\
    (own r = [] -> r' = r /\ (length (s_inl s) = length (s_inl r) -> s_size r = length (s_inl r) -> no_nul (contents r) -> contents s' = contents r)) /\
    (own r <> [] -> contents r' = [] /\ (s_grow s = true -> contents s' = contents r)).
Proof.
  intros W Wr I Hg. unfold move_str. destruct (s_heap r) as [[b m]|] eqn:Eh.
  - assert (Eo : own r = [b]) by (unfold own; rewrite Eh; reflexivity). rewrite Eo in *.
    assert (Em : s_mem r = m) by (unfold s_mem; rewrite Eh; reflexivity).
    destruct (slength_ok r Wr) as (-> & L2 & L3 & L4 & _). rewrite Em in L3, L4.
    pose proof (wf_size _ _ Wr) as Rs. pose proof (wf_max _ _ Wr) as Rm. pose proof (wf_nul _ _ Wr) as Rn. rewrite Em in Rs, Rn.
    destruct (attach_ok h s b m (s_size r) rest W I Rs Rm Rn) as (h1 & s1 & -> & W1 & I1 & G1 & T1 & F1).
    destruct (reset_own_trunc r (wf_wfb _ Wr)) as (r' & -> & Wr' & Or' & Cr' & Gr').
    destruct (truncate_ok s1 (length (contents r)) W1) as (s' & Es' & W' & O' & _ & G' & _). rewrite Es'.
    exists h1, s', r'. split; [auto|]. split; [auto|]. split; [auto|]. split; [rewrite O', Or'; exact I1|].
    split; [congruence|]. split; [auto|]. split; [discriminate|]. intros _. split; [auto|]. intro Ht.
    rewrite (T1 Ht) in Es'. unfold truncate in Es'. cbn [s_size] in Es'.
    replace (Nat.leb (s_size r) (length (contents r))) with false in Es' by lia.
    unfold s_mem in Es'; cbn [s_heap] in Es'.
    destruct (store m (length (contents r)) [0%N]) as [m'|] eqn:Est; [|discriminate]. injection Es' as <-.
    rewrite (contents_known _ (length (contents r))).
    + rewrite s_mem_len, s_mem_set, (store_prefix _ _ _ _ _ Est) by auto. auto.
    + reflexivity.
    + rewrite s_mem_len, s_mem_set, (store_nth _ _ _ _ _ Est), Nat.ltb_irrefl. cbn [length].
      replace (Nat.ltb (length (contents r)) (length (contents r) + 1)) with true by lia. rewrite Nat.sub_diag. reflexivity.
  - assert (Eo : own r = []) by (unfold own; rewrite Eh; reflexivity). rewrite Eo in *. cbn [app] in *.
    destruct (inv2_free h s rest I) as (h1 & -> & I1).
    pose proof (wf_wfb _ W) as [B1 B2 B3 B4].
    (* copy clears first, which needs no NUL *)
    assert (Hcl : exists s0, clear (reset_own s) = Some s0 /\ wf s0 /\ contents s0 = [] /\ own s0 = [] /\ s_size s0 = length (s_inl s) /\ s_grow s0 = s_grow s).
    { unfold clear, reset_own. unfold s_mem; cbn [s_heap s_inl]. rewrite store_some by (cbn; lia). cbn [firstn app plus length].
      unfold set_mem, set_len; cbn [s_heap s_inl s_size s_len s_grow]. eexists. split; [reflexivity|].
      destruct (s_inl s) as [|u l]; [cbn in B3; lia|]. cbn [skipn length] in *.
      split; [|split; [reflexivity|split; [reflexivity|split; reflexivity]]].
      constructor; cbn [s_size s_inl s_len]; unfold s_mem; cbn [s_heap s_inl length firstn]; auto; try lia; intros; left; reflexivity. }
    destruct Hcl as (s0 & Ecl & W0 & C0 & O0 & Z0 & G0). unfold copy. rewrite Ecl.
    assert (I1' : inv2 h1 (own s0 ++ rest)) by (rewrite O0; exact I1).
    assert (Hnr : has_nul (s_mem r)) by (eapply in_firstn_in, (wf_nul _ _ Wr)).
    destruct (concat_ok h1 s0 (s_mem r) None W0 (proj1 I1) (inv2_hown _ _ _ I1') Hnr) as (h2 & s2 & r2 & -> & W2 & Hr & G2 & S2 & C2 & _).
    exists h2, s2, r. split; [auto|]. split; [auto|]. split; [auto|]. split; [rewrite Eo; cbn [app]; eapply inv2_upd; eauto|].
    split; [congruence|]. split; [auto|]. split; [|congruence]. intros _. split; [auto|]. intros Hl Hsr Hnn.
    rewrite C2, C0. cbn [length app].
    assert (Ecr : cstr (s_mem r) = contents r).
    { unfold contents in *. destruct (s_len r) as [|n] eqn:En; [reflexivity|].
      destruct (wf_len _ _ Wr) as [Hlt Hz]; [congruence|]. rewrite En in *.
      pose proof (wf_size _ _ Wr).
      assert (Hb : begins (s_mem r) (firstn (S n) (s_mem r))).
      { exists (skipn (S (S n)) (s_mem r)). clear - Hz. revert Hz. generalize (S n) (s_mem r). intros k l. revert k.
        induction l as [|u l IH]; intros k Hz; [destruct k; discriminate|]. destruct k as [|k]; [cbn in Hz; injection Hz as ->; reflexivity|].
        cbn [firstn app skipn]. f_equal. apply IH. exact Hz. }
      apply begins_cstr; auto. }
    rewrite Ecr. destruct (slength_ok r Wr) as (_ & Hlt & _). rewrite firstn_all. apply firstn_all2. lia.
Qed.

Lemma reset_own_wf s : wf s -> length (s_inl s) = 1 -> wf (reset_own s) /\ own (reset_own s) = [] /\ contents (reset_own s) = [].
Proof.
  intros [W1 W2 W3 W4 W5 W6] H1. specialize (W4 H1). unfold reset_own. rewrite H1.
  destruct (s_inl s) as [|u [|]] eqn:E; try discriminate. destruct W4 as [->|[]].
  split; [|split; reflexivity].
  constructor; cbn [s_size s_inl s_len]; unfold s_mem; cbn [s_heap s_inl length firstn]; auto; try lia; try congruence; left; reflexivity.
Qed.

Lemma move_moveable_ok h s r rest : wf s -> wf r -> inv2 h (own s ++ own r ++ rest) -> length (s_inl s) = 1 -> length (s_inl r) = 1 ->
  exists h' s' r', move_moveable h s r = Some (h', s', r') /\ wf s' /\ wf r' /\ inv2 h' (own s' ++ own r' ++ rest) /\
    own s' ++ own r' = own s' /\
    contents s' = (match own r with [] => [] | _ => contents r end) /\ (own r <> [] -> contents r' = []).
Proof.
  intros W Wr I Hs Hr. unfold move_moveable. destruct (s_heap r) as [[b m]|] eqn:Eh.
  - assert (Eo : own r = [b]) by (unfold own; rewrite Eh; reflexivity). rewrite Eo in *.
    destruct (inv2_free h s _ I) as (h1 & -> & I1). eexists h1, _, _. split; [reflexivity|].
    assert (Er : mkS (s_inl r) (Some (b, m)) (s_size r) (s_len r) (s_grow r) = r) by (destruct r; cbn in *; congruence).
    rewrite Er. destruct (reset_own_wf r Wr Hr) as (R1 & R2 & R3). rewrite R2, Eo. cbn [app].
    split; [auto|]. split; [auto|]. split; [exact I1|]. auto.
  - assert (Eo : own r = []) by (unfold own; rewrite Eh; reflexivity). rewrite Eo in *.
    destruct (clear_ok s W) as (s' & -> & W' & C' & O' & _). exists h, s', r. split; [auto|]. split; [auto|]. split; [auto|].
    rewrite Eo, O'. split; [exact I|]. split; [apply app_nil_r|]. split; [auto|congruence].
Qed.

(** Lists of strings. *)
Lemma get_split l i s : get l i = Some s -> exists a b, l = a ++ Some s :: b /\ length a = i /\ forall x, setn l i x = a ++ x :: b.
Proof.
  revert i; induction l as [|y l IH]; intros i H; unfold get in H; [destruct i; discriminate|].
  destruct i as [|i].
  - cbn in H. destruct y; [|discriminate]. injection H as ->. exists [], l. auto.
  - destruct (IH i) as (a & b & -> & Ha & Hs); [unfold get; auto|]. exists (y :: a), b. split; [auto|]. split; [cbn; auto|].
    intro x. cbn [setn app]. rewrite Hs. reflexivity.
Qed.

Lemma owns_app a b : owns (a ++ b) = owns a ++ owns b.
Proof. apply flat_map_app. Qed.
Lemma owns_cons s b : owns (Some s :: b) = own s ++ owns b. Proof. reflexivity. Qed.

Definition live_wf (l : list (option str)) : Prop := forall s, In (Some s) l -> wf s.
Definition winv (w : sworld) : Prop := inv2 (sw_heap w) (owns (sw_strs w) ++ sw_det w) /\ live_wf (sw_strs w).

Lemma owns_split a s b d : Permutation (owns (a ++ Some s :: b) ++ d) (own s ++ owns (a ++ b) ++ d).
Proof.
  rewrite !owns_app, owns_cons. rewrite <- !app_assoc.
  rewrite (app_assoc (owns a) (own s)). rewrite (Permutation_app_comm (owns a) (own s)). rewrite <- !app_assoc. apply Permutation_refl.
Qed.

Lemma live_split a s b : live_wf (a ++ Some s :: b) -> wf s /\ live_wf (a ++ b).
Proof.
  intro H. split; [apply H; apply in_or_app; right; left; auto|]. intros x Hx. apply H. apply in_app_or in Hx. apply in_or_app.
  destruct Hx; [auto|right; right; auto].
Qed.
Lemma live_join a s b : wf s -> live_wf (a ++ b) -> live_wf (a ++ Some s :: b).
Proof.
  intros W H x Hx. apply in_app_or in Hx as [Hx|[Hx|Hx]]; [apply H, in_or_app; auto|congruence|apply H, in_or_app; auto].
Qed.

Lemma owns_none a b : owns (a ++ None :: b) = owns (a ++ b).
Proof. rewrite !owns_app. reflexivity. Qed.

Lemma remove_perm b d : NoDup d -> In b d -> Permutation d (b :: remove Nat.eq_dec b d).
Proof.
  induction d as [|x d IH]; intros Hn Hb; [destruct Hb|]. inversion_clear Hn. cbn [remove]. destruct (Nat.eq_dec b x) as [->|Hx].
  - rewrite notin_remove; auto.
  - destruct Hb as [Hb|Hb]; [congruence|]. rewrite perm_swap. constructor. auto.
Qed.

Lemma get_other a s b j r : get (a ++ Some s :: b) j = Some r -> j <> length a ->
  exists a' b', a ++ b = a' ++ Some r :: b' /\
    forall s' r', exists a2 b2, setn (setn (a ++ Some s :: b) (length a) (Some s')) j (Some r') = a2 ++ Some s' :: b2 /\
      exists a3 b3, a2 ++ b2 = a3 ++ Some r' :: b3 /\ a3 ++ b3 = a' ++ b'.
Proof.
  intros Hg Hj.
  assert (Hset : forall s', setn (a ++ Some s :: b) (length a) (Some s') = a ++ Some s' :: b).
  { intro s'. clear. induction a as [|x a IH]; [reflexivity|]. cbn. f_equal. auto. }
  destruct (Nat.lt_total j (length a)) as [Hlt|[Heq|Hgt]]; [|contradiction|].
  - assert (Hga : get a j = Some r). { unfold get in *. rewrite nth_error_app1 in Hg by auto. auto. }
    destruct (get_split a j r Hga) as (a1 & a2 & -> & Hl & Hs). exists a1, (a2 ++ b). split; [rewrite <- app_assoc; reflexivity|].
    intros s' r'. rewrite Hset. exists (a1 ++ Some r' :: a2), b. split.
    + rewrite <- Hl. clear. rewrite <- !app_assoc. induction a1 as [|x a1 IH]; [reflexivity|]. cbn. f_equal. auto.
    + exists a1, (a2 ++ b). split; [rewrite <- app_assoc; reflexivity|auto].
  - assert (Hgb : get b (j - S (length a)) = Some r).
    { unfold get in *. rewrite nth_error_app2 in Hg by lia. destruct (j - length a) as [|k] eqn:E; [lia|]. cbn in Hg.
      replace (j - S (length a)) with k by lia. auto. }
    destruct (get_split b _ r Hgb) as (b1 & b2 & -> & Hl & Hs). exists (a ++ b1), b2. split; [rewrite <- app_assoc; reflexivity|].
    intros s' r'. rewrite Hset. exists a, (b1 ++ Some r' :: b2). split.
    + assert (j = length a + S (length b1)) as -> by lia. clear. induction a as [|x a IH].
      * cbn. f_equal. induction b1 as [|y b1 IHb]; [reflexivity|]. cbn. f_equal. auto.
      * cbn. f_equal. auto.
    + exists (a ++ b1), b2. split; [rewrite <- app_assoc; reflexivity|auto].
Qed.

Lemma sstep_ok_inv w st : winv w -> sstep_ok max_size w st -> exists w', sstep_do max_size fresh w st = Some w' /\ winv w'.
Proof.
  destruct w as [h l d]. intros [I L] Hok. cbn [sw_heap sw_strs sw_det] in *. unfold sstep_do; cbn [sw_heap sw_strs sw_det].
  assert (Hsame : winv (mkSW h l d)) by (split; auto).
  destruct st as [g grow|i o|i j|i j|i|b|i b m|i]; cbn [sstep_ok sw_strs] in Hok.
  - (* new *)
    unfold new_str, clear. unfold s_mem; cbn [s_heap s_inl]. rewrite store_some by (cbn; lia). cbn [firstn app plus length].
    eexists. split; [reflexivity|]. unfold set_mem, set_len; cbn [s_heap s_inl s_size s_len s_grow].
    split; cbn [sw_heap sw_strs sw_det].
    + rewrite owns_app. cbn [owns flat_map own s_heap app]. rewrite app_nil_r. auto.
    + intros s Hs. apply in_app_or in Hs as [Hs|[Hs|[]]]; [auto|]. injection Hs as <-.
      destruct g as [|u g]; [cbn in Hok; lia|]. cbn [skipn length] in *.
      constructor; cbn [s_size s_inl s_len]; unfold s_mem; cbn [s_heap s_inl length firstn]; auto; try lia; intros; left; reflexivity.
  - (* operation *)
    destruct (get l i) as [s|] eqn:Eg; [|eauto]. specialize (Hok s eq_refl).
    destruct (get_split l i s Eg) as (a & b & -> & _ & Hset). destruct (live_split _ _ _ L) as [Ws L'].
    pose proof (inv2_perm _ _ _ (owns_split a s b d) I) as I'.
    destruct (do_op_ok h s o Ws (proj1 I') (inv2_hown _ _ _ I') Hok) as (h' & s' & -> & W' & Hr & _).
    eexists. split; [reflexivity|]. rewrite Hset. split; cbn [sw_heap sw_strs sw_det].
    + eapply inv2_perm; [apply Permutation_sym, owns_split|]. eapply inv2_upd; eauto.
    + apply live_join; auto.
  - (* move *)
    destruct (get l i) as [s|] eqn:Eg; [|eauto]. destruct (get l j) as [r|] eqn:Er; [|eauto].
    destruct (Nat.eqb_spec i j) as [_|Hij]; [eauto|]. specialize (Hok s r eq_refl eq_refl).
    destruct (get_split l i s Eg) as (a & b & -> & Hla & _). subst i. destruct (live_split _ _ _ L) as [Ws L'].
    destruct (get_other a s b j r Er) as (a' & b' & Eab & Hset); [auto|].
    pose proof (inv2_perm _ _ _ (owns_split a s b d) I) as I'. rewrite Eab in I', L'. destruct (live_split _ _ _ L') as [Wr L''].
    pose proof (inv2_perm _ _ _ (Permutation_app_head (own s) (owns_split a' r b' d)) I') as I''.
    destruct (move_str_ok h s r _ Ws Wr I'' Hok) as (h' & s' & r' & -> & W' & Wr' & I3 & _).
    eexists. split; [reflexivity|]. destruct (Hset s' r') as (a2 & b2 & -> & a3 & b3 & E1 & E2).
    split; cbn [sw_heap sw_strs sw_det].
    + eapply inv2_perm; [apply Permutation_sym, owns_split|]. rewrite E1.
      eapply inv2_perm; [apply Permutation_app_head, Permutation_sym, owns_split|]. rewrite E2. exact I3.
    + apply live_join; auto. rewrite E1. apply live_join; auto. rewrite E2. auto.
  - (* move of moveable *)
    destruct (get l i) as [s|] eqn:Eg; [|eauto]. destruct (get l j) as [r|] eqn:Er; [|eauto].
    destruct (Nat.eqb_spec i j) as [_|Hij]; [eauto|]. destruct (Hok s r eq_refl eq_refl) as [O1 O2].
    destruct (get_split l i s Eg) as (a & b & -> & Hla & _). subst i. destruct (live_split _ _ _ L) as [Ws L'].
    destruct (get_other a s b j r Er) as (a' & b' & Eab & Hset); [auto|].
    pose proof (inv2_perm _ _ _ (owns_split a s b d) I) as I'. rewrite Eab in I', L'. destruct (live_split _ _ _ L') as [Wr L''].
    pose proof (inv2_perm _ _ _ (Permutation_app_head (own s) (owns_split a' r b' d)) I') as I''.
    destruct (move_moveable_ok h s r _ Ws Wr I'' O1 O2) as (h' & s' & r' & -> & W' & Wr' & I3 & _).
    eexists. split; [reflexivity|]. destruct (Hset s' r') as (a2 & b2 & -> & a3 & b3 & E1 & E2).
    split; cbn [sw_heap sw_strs sw_det].
    + eapply inv2_perm; [apply Permutation_sym, owns_split|]. rewrite E1.
      eapply inv2_perm; [apply Permutation_app_head, Permutation_sym, owns_split|]. rewrite E2. exact I3.
    + apply live_join; auto. rewrite E1. apply live_join; auto. rewrite E2. auto.
  - (* detach *)
    destruct (get l i) as [s|] eqn:Eg; [|eauto]. specialize (Hok s eq_refl).
    destruct (get_split l i s Eg) as (a & b & -> & _ & Hset). destruct (live_split _ _ _ L) as [Ws L'].
    unfold detach. eexists. split; [reflexivity|]. rewrite Hset. destruct (reset_own_wf s Ws Hok) as (R1 & R2 & _).
    split; cbn [sw_heap sw_strs sw_det]; [|apply live_join; auto].
    eapply inv2_perm; [|exact I].
    rewrite (owns_split a s b d), (owns_split a (reset_own s) b). rewrite R2. cbn [app]. unfold own.
    destruct (s_heap s) as [[x m]|]; [|reflexivity]. cbn [app]. apply Permutation_middle.
  - (* free of a detached block *)
    destruct (existsb (Nat.eqb b) d) eqn:Ed; [|eauto].
    apply existsb_exists in Ed as (x & Hx & Ex). apply Nat.eqb_eq in Ex. subst x.
    assert (Hp : Permutation (owns l ++ d) (b :: owns l ++ remove Nat.eq_dec b d)).
    { rewrite (remove_perm b d) at 1; [apply Permutation_sym, Permutation_middle|eapply NoDup_app_r, I|auto]. }
    destruct (inv2_free1 h b _ (inv2_perm _ _ _ Hp I)) as (h' & -> & I'). eexists. split; [reflexivity|]. split; auto.
  - (* attach of a detached block *)
    destruct (get l i) as [s|] eqn:Eg; [|eauto].
    destruct (existsb (Nat.eqb b) d) eqn:Ed; [|eauto].
    apply existsb_exists in Ed as (x & Hx & Ex). apply Nat.eqb_eq in Ex. subst x. destruct Hok as [Hn Hl].
    destruct (get_split l i s Eg) as (a & c & -> & _ & Hset). destruct (live_split _ _ _ L) as [Ws L'].
    assert (Hp : Permutation (owns (a ++ Some s :: c) ++ d) (own s ++ b :: owns (a ++ c) ++ remove Nat.eq_dec b d)).
    { rewrite (owns_split a s c d). apply Permutation_app_head.
      rewrite (remove_perm b d) at 1; [apply Permutation_sym, Permutation_middle|eapply NoDup_app_r, I|auto]. }
    destruct (attach_ok h s b m (length m) _ Ws (inv2_perm _ _ _ Hp I)) as (h' & s' & -> & W' & I' & _); [lia|lia|rewrite firstn_all; auto|].
    eexists. split; [reflexivity|]. rewrite Hset. split; cbn [sw_heap sw_strs sw_det].
    + eapply inv2_perm; [apply Permutation_sym, owns_split|]. exact I'.
    + apply live_join; auto.
  - (* destroy *)
    destruct (get l i) as [s|] eqn:Eg; [|eauto].
    destruct (get_split l i s Eg) as (a & b & -> & _ & Hset). destruct (live_split _ _ _ L) as [Ws L'].
    pose proof (inv2_perm _ _ _ (owns_split a s b d) I) as I'.
    destruct (inv2_free h s _ I') as (h' & -> & I2). eexists. split; [reflexivity|]. rewrite Hset. split; cbn [sw_heap sw_strs sw_det].
    + rewrite owns_none. auto.
    + intros x Hx. apply L'. apply in_app_or in Hx as [Hx|[Hx|Hx]]; [apply in_or_app; auto|discriminate|apply in_or_app; auto].
Qed.

Lemma sreach_inv w : sreach max_size fresh w -> winv w.
Proof.
  induction 1 as [|w st w' Hr IH Hok Hd].
  - split; [|intros s []]. cbn. split; [|split; [constructor|tauto]]. split; [constructor|intros x []].
  - destruct (sstep_ok_inv w st IH Hok) as (w2 & E & Hw). congruence.
Qed.
End S.
