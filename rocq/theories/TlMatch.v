(** The search of the popup lists (strstr_compare, clink/lib/src/textlist_impl.cpp 283-299) over str_compare (CmpModel.v): what
    contains a longer search string contains a shorter one.  This is what the other theorems on the popup lists ask for. *)
From Verif Require Import Base UtfModel UtfSpec UtfProofs UtfProperties CmpModel TlModel.

(** A string up to its NUL, and in memory *)
Fixpoint cstr (t : bytes) : list N :=
  match t with [] => [] | b :: r => if (N_of_ascii b =? 0)%N then [] else N_of_ascii b :: cstr r end.
Definition mem (t : bytes) : list N := cstr t ++ [0%N].
(** A string of whole characters *)
Definition whole (t : bytes) : Prop := exists vs, Forall scalar vs /\ map N_of_ascii t = flat_map utf8 vs.

Section Search.
Variable lower : N -> N.
Variable mode : nat.
Variable fuzzy : bool.

(** The loop of strstr_compare (288-296) *)
Fixpoint sift (fuel : nat) (n h : list N) (len p : nat) : option bool :=
  match fuel with
  | O => None
  | S k =>
      match more h None p with
      | None => None
      | Some false => Some false
      | Some true =>
          match str_compare lower false mode fuzzy false false n None 0 h None p with
          | None => None
          | Some z =>
              if (z =? -1)%Z || (z =? Z.of_nat len)%Z then Some true
              else match next8 h None p with Some (_, p') => sift k n h len p' | None => None end
          end
      end
  end.
Definition strstr_compare (needle haystack : bytes) : option bool :=
  sift (S (length (mem haystack))) (mem needle) (mem haystack) (length (cstr needle)) 0.
Definition has (needle haystack : bytes) : bool := match strstr_compare needle haystack with Some b => b | None => false end.
(** str_compare is not 0 (1951-1953) *)
Definition starts (needle text : bytes) : bool :=
  match str_compare lower false mode fuzzy false false (mem needle) None 0 (mem text) None 0 with Some z => negb (z =? 0)%Z | None => false end.

(** ** As functions on the texts *)
Fixpoint drop (fuel : nat) (t : list N) : list N :=
  match fuel with O => t | S k => let '(v, r) := d8 t in if is_separator v then drop k r else t end.
Definition dropped (t : list N) : list N := drop (length t) t.
(** All of the search string is found at the beginning of the text. *)
Fixpoint eats (fuel : nat) (l t : list N) : bool :=
  match l with
  | [] => true
  | _ =>
      match fuel with
      | O => false
      | S k =>
          let '(c, l') := d8 l in
          let '(d, t') := d8 t in
          if (c =? 0)%N || (d =? 0)%N then false
          else
            let c := fold_char lower mode false c in
            let d := fold_char lower mode false d in
            let go (c : N) := if (c =? 47)%N then eats k (dropped l') (dropped t') else eats k l' t' in
            if (c =? d)%N then go c
            else if negb fuzzy then false
            else if (normalize_accent c =? normalize_accent d)%N then go (normalize_accent c) else false
      end
  end.

Lemma d8_nil : d8 [] = (0%N, []). Proof. reflexivity. Qed.
Lemma d8_less t v r : t <> [] -> d8 t = (v, r) -> length r < length t.
Proof. intros Ht H. destruct (dl8_suffix _ _ _ _ _ Ht H) as (u & -> & Hu). rewrite app_length. destruct u; [contradiction|cbn; lia]. Qed.
Lemma d8_at m p t v r : text_at m None p t -> d8 t = (v, r) -> next8 m None p = Some (v, p + (length t - length r)) /\ text_at m None (p + (length t - length r)) r.
Proof.
  intros Ht H. destruct t as [|b t].
  - injection H as <- <-. pose proof (next8_text _ _ _ _ _ _ Logic.I Ht d8_nil) as E. cbn [length Nat.sub] in *. rewrite Nat.sub_0_r in E. rewrite !Nat.add_0_r in *. auto.
  - destruct (dl8_suffix (b :: t) 0 0 v r ltac:(discriminate) H) as (u & Eu & Hu). split.
    + rewrite (next8_text _ _ _ _ _ _ Logic.I Ht H). do 2 f_equal. rewrite Eu, app_length. lia.
    + rewrite Eu in *. replace (length (u ++ r) - length r) with (length u) by (rewrite app_length; lia). apply text_at_suffix. exact Ht.
Qed.
Lemma drop_less k : forall t, length (drop k t) <= length t.
Proof.
  induction k as [|k IH]; intros t; cbn [drop]; [lia|]. destruct (d8 t) as [v r] eqn:E. destruct (is_separator v) eqn:Es; [|lia].
  specialize (IH r). destruct t as [|b t]; [injection E as <- <-; discriminate|]. pose proof (d8_less (b :: t) v r ltac:(discriminate) E). lia.
Qed.
Lemma drop_enough : forall k t, length t <= k -> drop k t = dropped t.
Proof.
  intros k t. unfold dropped. remember (length t) as n eqn:En. assert (Hn : length t <= n) by lia. clear En. revert k n Hn.
  assert (H : forall m t k n, length t <= m -> length t <= k -> length t <= n -> drop k t = drop n t).
  { induction m as [|m IH]; intros t0 k n Hm Hk Hn.
    - destruct t0; [|cbn in Hm; lia]. assert (forall k, drop k [] = []) as E by (intros [|k']; [reflexivity|]; cbn [drop]; rewrite d8_nil; reflexivity). rewrite !E. reflexivity.
    - destruct t0 as [|b t0]; [assert (forall k, drop k [] = []) as E by (intros [|k']; [reflexivity|]; cbn [drop]; rewrite d8_nil; reflexivity); rewrite !E; reflexivity|].
      destruct k as [|k]; [cbn in Hk; lia|]. destruct n as [|n]; [cbn in Hn; lia|]. cbn [drop]. destruct (d8 (b :: t0)) as [v r] eqn:E. destruct (is_separator v); [|reflexivity].
      pose proof (d8_less (b :: t0) v r ltac:(discriminate) E). apply IH; lia. }
  intros k n Hn Hk. apply (H (length t) t k n); lia.
Qed.
Lemma skip_at m k : forall p t, text_at m None p t -> length t < k ->
  skip_seps (next8 m None) k p = Some (p + (length t - length (dropped t))) /\ text_at m None (p + (length t - length (dropped t))) (dropped t).
Proof.
  induction k as [|k IH]; intros p t Ht Hk; [lia|]. cbn [skip_seps]. destruct (d8 t) as [v r] eqn:E. destruct (d8_at _ _ _ _ _ Ht E) as [-> Hr].
  rewrite <- (drop_enough (S (length t)) t) by lia. cbn [drop]. rewrite E. destruct (is_separator v) eqn:Es.
  - destruct t as [|b t]; [injection E as <- <-; discriminate|]. pose proof (d8_less (b :: t) v r ltac:(discriminate) E) as Hl.
    destruct (IH _ r Hr ltac:(lia)) as [H1 H2]. pose proof (drop_less (length r) r) as Hd. fold (dropped r) in Hd. rewrite (drop_enough (length (b :: t)) r) by lia.
    replace (p + (length (b :: t) - length (dropped r))) with (p + (length (b :: t) - length r) + (length r - length (dropped r))) by lia. auto.
  - rewrite Nat.sub_diag, Nat.add_0_r. auto.
Qed.

Lemma loop_at ml mr : forall k p q l t, text_at ml None p l -> text_at mr None q t -> length l + length t < k ->
  exists p' q', cmp_loop lower (next8 ml None) (next8 mr None) mode fuzzy false k p q = Some (p', q') /\
    (exists l', text_at ml None p' l' /\ p' + length l' = p + length l) /\ (exists t', text_at mr None q' t') /\ (p' = p + length l <-> eats k l t = true).
Proof.
  induction k as [|k IH]; intros p q l t Hl Ht Hk; [lia|]. cbn [cmp_loop]. destruct (d8 l) as [c l'] eqn:El. destruct (d8 t) as [d t'] eqn:Et.
  destruct (d8_at _ _ _ _ _ Hl El) as [-> Hl']. destruct (d8_at _ _ _ _ _ Ht Et) as [-> Ht'].
  assert (Hstop : (l = [] \/ eats (S k) l t = false) -> exists p' q', Some (p, q) = Some (p', q') /\ (exists l', text_at ml None p' l' /\ p' + length l' = p + length l) /\ (exists t', text_at mr None q' t') /\ (p' = p + length l <-> eats (S k) l t = true)).
  { intros H. exists p, q. split; [reflexivity|]. split; [exists l; auto|]. split; [exists t; auto|]. destruct H as [-> |H].
    - cbn [length eats]. split; [reflexivity|lia].
    - rewrite H. split; [|discriminate]. intros E. destruct l; [discriminate H|cbn in E; lia]. }
  destruct l as [|b l].
  { injection El as <- <-. cbn [N.eqb orb]. apply Hstop. auto. }
  assert (He : eats (S k) (b :: l) t = (if (c =? 0)%N || (d =? 0)%N then false else
     let c := fold_char lower mode false c in let d := fold_char lower mode false d in
     let go (c : N) := if (c =? 47)%N then eats k (dropped l') (dropped t') else eats k l' t' in
     if (c =? d)%N then go c else if negb fuzzy then false else if (normalize_accent c =? normalize_accent d)%N then go (normalize_accent c) else false)).
  { cbn [eats]. rewrite El, Et. reflexivity. }
  rewrite He in *. destruct ((c =? 0)%N || (d =? 0)%N) eqn:E0; [apply Hstop; auto|]. cbv zeta in *.
  pose proof (d8_less (b :: l) c l' ltac:(discriminate) El) as Hll.
  assert (Htl : length t' < length t). { destruct t as [|x t]; [injection Et as <- <-; cbn in E0; rewrite Bool.orb_true_r in E0; discriminate|]. apply (d8_less (x :: t) d t' ltac:(discriminate) Et). }
  assert (Hgo : forall x : N, exists p' q', (if (x =? 47)%N then
        match skip_seps (next8 ml None) k (p + (length (b :: l) - length l')), skip_seps (next8 mr None) k (q + (length t - length t')) with
        | Some p2, Some q2 => cmp_loop lower (next8 ml None) (next8 mr None) mode fuzzy false k p2 q2 | _, _ => None end
        else cmp_loop lower (next8 ml None) (next8 mr None) mode fuzzy false k (p + (length (b :: l) - length l')) (q + (length t - length t'))) = Some (p', q') /\
      (exists l'0, text_at ml None p' l'0 /\ p' + length l'0 = p + length (b :: l)) /\ (exists t'0, text_at mr None q' t'0) /\ (p' = p + length (b :: l) <-> (if (x =? 47)%N then eats k (dropped l') (dropped t') else eats k l' t') = true)).
  { intros x. destruct (x =? 47)%N.
    - destruct (skip_at ml k _ _ Hl' ltac:(lia)) as [-> Hl2]. destruct (skip_at mr k _ _ Ht' ltac:(lia)) as [-> Ht2].
      pose proof (drop_less (length l') l') as D1. pose proof (drop_less (length t') t') as D2. fold (dropped l') in D1. fold (dropped t') in D2.
      destruct (IH _ _ _ _ Hl2 Ht2 ltac:(lia)) as (p' & q' & E & (l2 & F1 & F2) & F3 & F4). exists p', q'. split; [exact E|]. split; [exists l2; split; [exact F1|lia]|]. split; [exact F3|]. rewrite <- F4. lia.
    - destruct (IH _ _ _ _ Hl' Ht' ltac:(lia)) as (p' & q' & E & (l2 & F1 & F2) & F3 & F4). exists p', q'. split; [exact E|]. split; [exists l2; split; [exact F1|lia]|]. split; [exact F3|]. rewrite <- F4. lia. }
  destruct (fold_char lower mode false c =? fold_char lower mode false d)%N; [apply Hgo|]. destruct fuzzy; cbn [negb] in *; [|apply Hstop; auto].
  destruct (normalize_accent _ =? normalize_accent _)%N; [apply Hgo|apply Hstop; auto].
Qed.

Lemma eats_fuel : forall k1 k2 l t, length l <= k1 -> length l <= k2 -> eats k1 l t = eats k2 l t.
Proof.
  induction k1 as [|k1 IH]; intros k2 l t H1 H2; [destruct l; [destruct k2; reflexivity|cbn in H1; lia]|]. destruct l as [|b l]; [destruct k2; reflexivity|].
  destruct k2 as [|k2]; [cbn in H2; lia|]. cbn [eats]. destruct (d8 (b :: l)) as [c l'] eqn:El. destruct (d8 t) as [d t'].
  pose proof (d8_less (b :: l) c l' ltac:(discriminate) El) as Hll. pose proof (drop_less (length l') l') as D1. fold (dropped l') in D1.
  rewrite (IH k2 (dropped l') (dropped t')), (IH k2 l' t') by lia. reflexivity.
Qed.

(** ** Sifting *)
Definition eaten (l t : list N) : bool := eats (length l) l t.
Fixpoint sifts (fuel : nat) (l t : list N) : bool :=
  match fuel with
  | O => false
  | S k => match t with [] => false | _ => if eaten l t then true else sifts k l (snd (d8 t)) end
  end.
Lemma compare_at n m p l t : text_at n None 0 l -> text_at m None p t -> l <> [] ->
  exists z, str_compare lower false mode fuzzy false false n None 0 m None p = Some z /\ ((z =? -1)%Z || (z =? Z.of_nat (length l))%Z = eaten l t).
Proof.
  intros Hl Ht Hne. unfold str_compare. pose proof (text_at_len _ _ _ _ Hl). pose proof (text_at_len _ _ _ _ Ht).
  destruct (loop_at n m (S (length n + length m)) 0 p l t Hl Ht ltac:(lia)) as (p' & q' & -> & (l' & F1 & F2) & (t' & F3) & F4).
  rewrite (more_text _ _ _ _ F1), (more_text _ _ _ _ F3). rewrite (eats_fuel _ (length l)) in F4 by lia. fold (eaten l t) in F4. eexists. split; [reflexivity|].
  cbn [orb]. rewrite Nat.sub_0_r. destruct (eaten l t) eqn:E.
  - assert (p' = length l) as -> by (apply F4; reflexivity). destruct l'; [|cbn in F2; lia]. destruct t'; cbn [orb]; [reflexivity|]. rewrite Z.eqb_refl. apply Bool.orb_true_r.
  - assert (Hp : p' <> length l) by (intros H1; apply F4 in H1; discriminate). destruct l'; [cbn in F2; lia|]. cbn [orb].
    destruct (Z.eqb_spec (Z.of_nat p') (-1)); [lia|]. destruct (Z.eqb_spec (Z.of_nat p') (Z.of_nat (length l))); [lia|reflexivity].
Qed.
Lemma sift_at n l : text_at n None 0 l -> l <> [] -> forall k m p t, text_at m None p t -> length t < k -> sift k n m (length l) p = Some (sifts k l t).
Proof.
  intros Hl Hne. induction k as [|k IH]; intros m p t Ht Hk; [lia|]. cbn [sift sifts]. rewrite (more_text _ _ _ _ Ht). destruct t as [|b t]; [reflexivity|].
  destruct (compare_at n m p l (b :: t) Hl Ht Hne) as (z & -> & ->). destruct (eaten l (b :: t)); [reflexivity|]. destruct (d8 (b :: t)) as [v r] eqn:E.
  destruct (d8_at _ _ _ _ _ Ht E) as [-> Hr]. cbn [snd]. apply IH; [exact Hr|]. pose proof (d8_less (b :: t) v r ltac:(discriminate) E). lia.
Qed.
Lemma cstr_text t : text_at (mem t) None 0 (cstr t).
Proof.
  apply cstring_text. induction t as [|b t IH]; cbn [cstr]; [constructor|]. destruct (N_of_ascii b =? 0)%N eqn:E; [constructor|]. constructor; [lia|exact IH].
Qed.
Lemma has_is n h : cstr n <> [] -> has n h = sifts (S (length (mem h))) (cstr n) (cstr h).
Proof.
  intros Hn. unfold has, strstr_compare. rewrite (sift_at (mem n) (cstr n) (cstr_text n) Hn _ _ _ (cstr h) (cstr_text h)); [reflexivity|]. unfold mem. rewrite app_length. cbn [length]. lia.
Qed.
Lemma sifts_more l1 l2 : (forall t, eaten l2 t = true -> eaten l1 t = true) -> forall k t, sifts k l2 t = true -> sifts k l1 t = true.
Proof.
  intros H. induction k as [|k IH]; intros t; cbn [sifts]; [discriminate|]. destruct t as [|b t]; [discriminate|]. specialize (H (b :: t)).
  destruct (eaten l1 (b :: t)); [reflexivity|]. destruct (eaten l2 (b :: t)); [discriminate (H eq_refl)|apply IH].
Qed.

(** ** More of the search string *)
Lemma drop_whole vs : Forall scalar vs -> forall x, exists ws y, Forall scalar ws /\ dropped (flat_map utf8 vs) = flat_map utf8 ws /\
  (ws = [] \/ dropped (flat_map utf8 vs ++ x) = flat_map utf8 ws ++ x) /\ (ws = [] -> dropped (flat_map utf8 vs ++ x) = y) /\ length ws <= length vs.
Proof.
  intros Hs x. induction vs as [|v vs IH].
  - exists [], (dropped ([] ++ x)). cbn. auto 10.
  - pose proof (Forall_inv Hs) as Hv. specialize (IH (Forall_inv_tail Hs)). destruct IH as (ws & y & A & B & C & D & E). pose proof (scalar_bound _ Hv) as Hb.
    assert (Hd : forall r, d8 (utf8 v ++ r) = (v, r)) by (intros; apply dl8_utf8; lia).
    assert (Hne : forall r, utf8 v ++ r <> []). { intros r H. pose proof (Hd r) as H1. rewrite H in H1. injection H1 as <- _. lia. }
    assert (Hst : forall r, dropped (utf8 v ++ r) = if is_separator v then dropped r else utf8 v ++ r).
    { intros r. rewrite <- (drop_enough (S (length (utf8 v ++ r)))) by lia. cbn [drop]. rewrite Hd. destruct (is_separator v); [|reflexivity]. apply drop_enough. rewrite app_length. lia. }
    cbn [flat_map]. rewrite <- app_assoc, !Hst. destruct (is_separator v).
    + exists ws, y. cbn [length]. auto 10.
    + exists (v :: vs), []. cbn [flat_map]. rewrite <- app_assoc. split; [exact Hs|]. split; [reflexivity|]. split; [auto|]. split; [discriminate|lia].
Qed.
Lemma eats_prefix : forall k vs x t, Forall scalar vs -> eats k (flat_map utf8 vs ++ x) t = true -> eats k (flat_map utf8 vs) t = true.
Proof.
  induction k as [|k IH]; intros vs x t Hs H; (destruct vs as [|v vs]; [reflexivity|]); pose proof (Forall_inv Hs) as Hv; pose proof (Forall_inv_tail Hs) as Hs';
    cbn [flat_map] in *; rewrite <- app_assoc in H; pose proof (scalar_bound _ Hv) as Hb;
    assert (Hd : forall r, d8 (utf8 v ++ r) = (v, r)) by (intros; apply dl8_utf8; lia);
    (assert (Hne : forall r, exists b l, utf8 v ++ r = b :: l) by (intros r; destruct (utf8 v ++ r) eqn:E; [pose proof (Hd r) as H1; rewrite E in H1; injection H1 as <- _; lia|eauto])).
  - destruct (Hne (flat_map utf8 vs ++ x)) as (b & l & E). rewrite E in H. discriminate.
  - assert (Hu : forall r, eats (S k) (utf8 v ++ r) t = (let '(d, t') := d8 t in if (v =? 0)%N || (d =? 0)%N then false else
     let c := fold_char lower mode false v in let d := fold_char lower mode false d in
     let go (c : N) := if (c =? 47)%N then eats k (dropped r) (dropped t') else eats k r t' in
     if (c =? d)%N then go c else if negb fuzzy then false else if (normalize_accent c =? normalize_accent d)%N then go (normalize_accent c) else false)).
    { intros r. pose proof (Hd r) as H1. destruct (Hne r) as (b & l & E). rewrite E in *. cbn [eats]. rewrite H1. reflexivity. }
    rewrite Hu in *. destruct (d8 t) as [d t']. destruct ((v =? 0)%N || (d =? 0)%N); [discriminate|]. cbv zeta in *.
    assert (Hgo : forall y : N, (if (y =? 47)%N then eats k (dropped (flat_map utf8 vs ++ x)) (dropped t') else eats k (flat_map utf8 vs ++ x) t') = true ->
      (if (y =? 47)%N then eats k (dropped (flat_map utf8 vs)) (dropped t') else eats k (flat_map utf8 vs) t') = true).
    { intros y. destruct (y =? 47)%N; [|intros G; exact (IH _ _ _ Hs' G)]. destruct (drop_whole vs Hs' x) as (ws & z & A & B & C & D & E). rewrite B.
      destruct C as [->|C]; [cbn [flat_map]; destruct k; reflexivity|]. rewrite C. intros G. exact (IH _ _ _ A G). }
    destruct (fold_char lower mode false v =? fold_char lower mode false d)%N; [apply Hgo; exact H|]. destruct fuzzy; cbn [negb] in *; [|exact H].
    destruct (normalize_accent _ =? normalize_accent _)%N; [apply Hgo; exact H|exact H].
Qed.
Lemma cstr_whole n x vs : Forall scalar vs -> map N_of_ascii n = flat_map utf8 vs -> cstr (n ++ x) = flat_map utf8 vs ++ cstr x.
Proof.
  intros Hs E. rewrite <- E. assert (Hz : Forall (fun u => u <> 0%N) (map N_of_ascii n)) by (rewrite E; apply nonzeros; [apply nonzero8|exact Hs]). clear E.
  induction n as [|b n IH]; cbn [app cstr map]; [reflexivity|]. cbn [map] in Hz. pose proof (Forall_inv Hz) as H0. cbn beta in H0. replace (N_of_ascii b =? 0)%N with false by lia.
  rewrite IH by exact (Forall_inv_tail Hz). reflexivity.
Qed.
(** What contains a search string contains its beginning. *)
Theorem has_more : forall n x t, whole n -> n <> [] -> has (n ++ x) t = true -> has n t = true.
Proof.
  intros n x t (vs & Hs & E) Hn. pose proof (cstr_whole n x vs Hs E) as E1. pose proof (cstr_whole n [] vs Hs E) as E2. rewrite app_nil_r in E2. cbn [cstr] in E2. rewrite app_nil_r in E2.
  assert (Hne : flat_map utf8 vs <> []) by (rewrite <- E; destruct n; [contradiction|discriminate]).
  rewrite !has_is; [|rewrite E2; exact Hne|rewrite E1; destruct (flat_map utf8 vs); [contradiction|discriminate]]. rewrite E1, E2. apply sifts_more. intros u Hu. unfold eaten in *.
  rewrite (eats_fuel _ (length (flat_map utf8 vs ++ cstr x))) by (rewrite ?app_length; lia). exact (eats_prefix _ _ _ _ Hs Hu).
Qed.
End Search.
