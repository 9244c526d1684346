(** C20-C22, C57: UTF-8 / UTF-16 decoding and conversion. *)
From Verif Require Import Base UtfModel UtfSpec UtfProofs.

Lemma next8_text mem e p t v r : True -> text_at mem e p t -> d8 t = (v, r) ->
  next8 mem e p = Some (v, p + length t - length r).
Proof. intros _. apply next8_eq. Qed.

Lemma units_app (u r : list N) : Forall (fun x => x < 65536)%N (u ++ r) -> Forall (fun x => x < 65536)%N r.
Proof. intro H. apply Forall_app in H. tauto. Qed.

Lemma to16_target mem e p t buf max : text_at mem e p t -> max <= length buf ->
  exists p', to_utf16 mem (Some buf) max e p =
    Some (Nat.min (length (full d8 split16 65536 t)) (max - 1), Some (target buf max (full d8 split16 65536 t)), p') /\
    p <= p' <= p + length t.
Proof.
  intros Ht Hm. unfold to_utf16. apply convert_target with (e := e) (okt := fun _ => True); auto.
  - apply d8_decoder.
  - intros p0 t0 v0 r0. apply next8_text.
Qed.
Lemma to8_target mem e p t buf max : Forall (fun x => x < 65536)%N t -> text_at mem e p t -> max <= length buf ->
  exists p', to_utf8 mem (Some buf) max e p =
    Some (Nat.min (length (full dl16 split8 256 t)) (max - 1), Some (target buf max (full dl16 split8 256 t)), p') /\
    p <= p' <= p + length t.
Proof.
  intros Hu Ht Hm. unfold to_utf8.
  apply convert_target with (e := e) (okt := fun t => Forall (fun x => x < 65536)%N t); auto.
  - apply d16_decoder.
  - apply units_app.
  - intros p0 t0 v0 r0. apply next16_eq.
Qed.

Lemma full16_utf8 vs : Forall scalar vs -> full d8 split16 65536 (flat_map utf8 vs) = flat_map utf16 vs.
Proof.
  intro H. unfold full. fold (decode8 (flat_map utf8 vs)). rewrite decode8_utf8 by auto.
  induction H as [|v vs Hv Hvs IH]; [reflexivity|]. cbn [flat_map]. rewrite IH.
  f_equal. apply split16_utf16. apply scalar_bound in Hv. lia.
Qed.
Lemma full8_scalars vs : Forall scalar vs -> flat_map (fun c => cut 256 (split8 c)) vs = flat_map utf8 vs.
Proof.
  intro H. induction H as [|v vs Hv Hvs IH]; [reflexivity|]. cbn [flat_map]. rewrite IH.
  f_equal. apply split8_utf8. apply scalar_bound in Hv. lia.
Qed.
Lemma full8_utf16 vs : Forall scalar vs -> full dl16 split8 256 (flat_map utf16 vs) = flat_map utf8 vs.
Proof.
  intro H. unfold full. fold (decode16 (flat_map utf16 vs)). rewrite decode16_utf16 by auto. apply full8_scalars; auto.
Qed.

Lemma utf16_units v : scalar v -> Forall (fun x => x < 65536)%N (utf16 v).
Proof.
  intro H. apply scalar_bound in H. unfold utf16. destruct (N.ltb_spec v 65536); repeat (constructor; [lia|]); constructor.
Qed.
Lemma utf16s_units vs : Forall scalar vs -> Forall (fun x => x < 65536)%N (flat_map utf16 vs).
Proof.
  intro H. induction H as [|v vs Hv Hvs IH]; cbn [flat_map]; [constructor|]. apply Forall_app. split; [apply utf16_units; auto|auto].
Qed.

(** ** C20 *)

(** Converting text that is standard UTF-8 writes standard UTF-16 of the same characters, and the other way around, for
    every target that has room and wherever the text lies in memory. *)
Theorem c20_utf8_to_utf16 : forall vs mem e p buf max, Forall scalar vs -> text_at mem e p (flat_map utf8 vs) ->
  length (flat_map utf16 vs) < max <= length buf ->
  exists p', to_utf16 mem (Some buf) max e p =
    Some (length (flat_map utf16 vs), Some (flat_map utf16 vs ++ 0%N :: skipn (S (length (flat_map utf16 vs))) buf), p').
Proof.
  intros vs mem e p buf max Hs Ht Hm.
  destruct (to16_target mem e p _ buf max Ht) as (p' & Hp & _); [lia|].
  exists p'. rewrite Hp. rewrite full16_utf8 by auto. rewrite Nat.min_l by lia. f_equal. f_equal. f_equal. f_equal.
  destruct max as [|m]; [lia|]. unfold target. cbv zeta. rewrite firstn_all2 by lia. reflexivity.
Qed.

Theorem c20_utf16_to_utf8 : forall vs mem e p buf max, Forall scalar vs -> text_at mem e p (flat_map utf16 vs) ->
  length (flat_map utf8 vs) < max <= length buf ->
  exists p', to_utf8 mem (Some buf) max e p =
    Some (length (flat_map utf8 vs), Some (flat_map utf8 vs ++ 0%N :: skipn (S (length (flat_map utf8 vs))) buf), p').
Proof.
  intros vs mem e p buf max Hs Ht Hm.
  destruct (to8_target mem e p _ buf max (utf16s_units vs Hs) Ht) as (p' & Hp & _); [lia|].
  exists p'. rewrite Hp. rewrite full8_utf16 by auto. rewrite Nat.min_l by lia. f_equal. f_equal. f_equal. f_equal.
  destruct max as [|m]; [lia|]. unfold target. cbv zeta. rewrite firstn_all2 by lia. reflexivity.
Qed.

Lemma nonzero8 v : scalar v -> Forall (fun u => u <> 0%N) (utf8 v).
Proof.
  intro H. apply scalar_bound in H. unfold utf8. destruct (N.ltb_spec v 128); [|destruct (N.ltb_spec v 2048); [|destruct (N.ltb_spec v 65536)]];
    repeat (constructor; [lia|]); constructor.
Qed.
Lemma nonzero16 v : scalar v -> Forall (fun u => u <> 0%N) (utf16 v).
Proof.
  intro H. apply scalar_bound in H. unfold utf16. destruct (N.ltb_spec v 65536); repeat (constructor; [lia|]); constructor.
Qed.
Lemma nonzeros f vs : (forall v, scalar v -> Forall (fun u => u <> 0%N) (f v)) -> Forall scalar vs ->
  Forall (fun u => u <> 0%N) (flat_map f vs).
Proof.
  intros Hf H. induction H; cbn [flat_map]; [constructor|]. apply Forall_app. split; [apply Hf; auto|auto].
Qed.
Lemma cstring_text t q : Forall (fun u => u <> 0%N) t -> text_at (t ++ 0%N :: q) None 0 t.
Proof.
  intro H. exists [], (0%N :: q). split; [reflexivity|]. split; [reflexivity|]. split; [auto|]. right. split; [reflexivity|exact I].
Qed.

(** Both round trips, through NUL terminated buffers. *)
Theorem c20_round_trips : forall vs w8 w16, Forall scalar vs ->
  length (flat_map utf16 vs) < length w16 -> length (flat_map utf8 vs) < length w8 ->
  (exists n p m16, to_utf16 (flat_map utf8 vs ++ [0%N]) (Some w16) (length w16) None 0 = Some (n, Some m16, p) /\
    exists p' rest, to_utf8 m16 (Some w8) (length w8) None 0 =
      Some (length (flat_map utf8 vs), Some (flat_map utf8 vs ++ 0%N :: rest), p')) /\
  (exists n p m8, to_utf8 (flat_map utf16 vs ++ [0%N]) (Some w8) (length w8) None 0 = Some (n, Some m8, p) /\
    exists p' rest, to_utf16 m8 (Some w16) (length w16) None 0 =
      Some (length (flat_map utf16 vs), Some (flat_map utf16 vs ++ 0%N :: rest), p')).
Proof.
  intros vs w8 w16 Hs H16 H8. split.
  - destruct (c20_utf8_to_utf16 vs (flat_map utf8 vs ++ [0%N]) None 0 w16 (length w16) Hs) as (p & Hp);
      [apply cstring_text; apply nonzeros; [apply nonzero8|auto]|lia|].
    eexists _, p, _. split; [exact Hp|].
    destruct (c20_utf16_to_utf8 vs (flat_map utf16 vs ++ 0%N :: skipn (S (length (flat_map utf16 vs))) w16) None 0 w8 (length w8) Hs)
      as (p' & Hp'); [apply cstring_text; apply nonzeros; [apply nonzero16|auto]|lia|].
    exists p', (skipn (S (length (flat_map utf8 vs))) w8). exact Hp'.
  - destruct (c20_utf16_to_utf8 vs (flat_map utf16 vs ++ [0%N]) None 0 w8 (length w8) Hs) as (p & Hp);
      [apply cstring_text; apply nonzeros; [apply nonzero16|auto]|lia|].
    eexists _, p, _. split; [exact Hp|].
    destruct (c20_utf8_to_utf16 vs (flat_map utf8 vs ++ 0%N :: skipn (S (length (flat_map utf8 vs))) w8) None 0 w16 (length w16) Hs)
      as (p' & Hp'); [apply cstring_text; apply nonzeros; [apply nonzero8|auto]|lia|].
    exists p', (skipn (S (length (flat_map utf16 vs))) w16). exact Hp'.
Qed.

(** U+0061, U+00E9, U+20AC, U+1F600. *)
Definition exvs : list N := [97; 233; 8364; 128512]%N.
Example c20_example : Forall scalar exvs /\
  flat_map utf8 exvs = [97; 195; 169; 226; 130; 172; 240; 159; 152; 128]%N /\
  flat_map utf16 exvs = [97; 233; 8364; 55357; 56832]%N /\
  to_utf16 (flat_map utf8 exvs ++ [0%N]) (Some (repeat 7%N 8)) 8 None 0 =
    Some (5, Some [97; 233; 8364; 55357; 56832; 0; 7; 7]%N, 10).
Proof.
  split; [repeat (constructor; [unfold scalar; lia|]); constructor|]. split; [reflexivity|]. split; vm_compute; reflexivity.
Qed.

(** ** C21 *)

Lemma text_at_valid mem e p t : text_at mem e p t -> (forall e', e = Some e' -> e' <= length mem) -> valid_iter mem e p.
Proof.
  intros (pre & post & Hm & Hl & Hz & He) Hle. unfold valid_iter. destruct e as [e'|].
  - specialize (Hle e' eq_refl). destruct He as [He|[_ He]]; [injection He as ->|]; lia.
  - destruct He as [He|[Hp _]]; [discriminate|]. destruct post as [|z post]; [discriminate|]. cbn in Hp; injection Hp as ->.
    rewrite Hm, skipn_app, <- Hl, skipn_all, Nat.sub_diag. cbn [skipn app]. apply in_or_app. right. left. reflexivity.
Qed.

(** UTF-8: for every memory content and every iterator over it, next() stays inside the text, moves forward unless at
    the end, leaves a valid iterator, and its value fits 21 bits. *)
Theorem c21_utf8_total : forall mem e p, valid_iter mem e p ->
  exists v p' more', more mem e p = Some more' /\ next8 mem e p = Some (v, p') /\ valid_iter mem e p' /\ (v < 2097152)%N /\
    (more' = false -> v = 0%N /\ p' = p) /\ (more' = true -> p < p') /\
    (forall i, p <= i < p' -> exists u, nth_error mem i = Some u /\ u <> 0%N).
Proof.
  intros mem e p Hv. destruct (valid_iter_text mem e p Hv) as (t & Ht).
  destruct (d8 t) as [v r] eqn:E.
  exists v, (p + length t - length r), (match t with [] => false | _ => true end).
  split; [apply more_text; auto|]. split; [apply next8_eq; auto|].
  assert (exists u, t = u ++ r /\ (t <> [] -> u <> [])) as (u & Hu & Hne).
  { destruct t as [|c t]; [cbn in E; injection E as <- <-; exists []; split; [auto|contradiction]|].
    destruct (dl8_suffix (c :: t) 0 0 v r) as (u & Hu & Hne); [discriminate|auto|]. exists u; auto. }
  assert (Hp' : p + length t - length r = p + length u) by (rewrite Hu, app_length; lia). rewrite Hp'.
  split.
  { rewrite Hu in Ht. apply text_at_suffix in Ht. eapply text_at_valid; eauto.
    intros e' ->. cbn in Hv. lia. }
  split; [eapply (dl8_bound t 0 0); eauto; lia|].
  split.
  { destruct t as [|c t]; [|discriminate]. cbn in E. injection E as <- <-. intros _. split; [auto|]. destruct u; [cbn; lia|discriminate]. }
  split.
  { intro Hm. assert (t <> []) as Htn by (destruct t; [discriminate|discriminate]). apply Hne in Htn.
    destruct u; [contradiction|cbn; lia]. }
  intros i Hi. destruct Ht as (pre & post & Hm & Hl & Hz & _). rewrite Hm, nth_error_app2 by lia.
  assert (i - length pre < length t) as Hlt by (rewrite Hu, app_length; lia).
  rewrite nth_error_app1 by auto. destruct (nth_error t (i - length pre)) as [x|] eqn:En.
  - exists x. split; [auto|]. rewrite Forall_forall in Hz. apply Hz. eapply nth_error_In; eauto.
  - apply nth_error_None in En. lia.
Qed.

(** UTF-16: likewise, and additionally the value is 0 exactly at the end of the text, and otherwise a Unicode scalar
    value, never a surrogate. *)
Theorem c21_utf16_total : forall mem e p, valid_iter mem e p -> Forall (fun u => u < 65536)%N mem ->
  exists v p' more', more mem e p = Some more' /\ next16 mem e p = Some (v, p') /\ valid_iter mem e p' /\
    (more' = false -> v = 0%N /\ p' = p) /\ (more' = true -> scalar v /\ p < p' <= p + 2) /\
    (forall i, p <= i < p' -> exists u, nth_error mem i = Some u /\ u <> 0%N).
Proof.
  intros mem e p Hv Hun. destruct (valid_iter_text mem e p Hv) as (t & Ht).
  assert (Forall (fun u => u < 65536)%N t) as Hut.
  { destruct Ht as (pre & post & -> & _). apply Forall_app in Hun as [_ Hun]. apply Forall_app in Hun. tauto. }
  destruct (dl16 t) as [v r] eqn:E.
  exists v, (p + length t - length r), (match t with [] => false | _ => true end).
  split; [apply more_text; auto|]. split; [apply next16_eq; auto|].
  assert (exists u, t = u ++ r /\ (t <> [] -> 0 < length u <= 2)) as (u & Hu & Hne).
  { destruct t as [|c t]; [cbn in E; injection E as <- <-; exists []; split; [auto|contradiction]|].
    cbn [dl16] in E. destruct (hi c).
    - destruct t as [|d t]; [injection E as <- <-; exists [c]; split; [auto|cbn; lia]|].
      destruct (lo d); injection E as <- <-; [exists [c; d]|exists [c]]; (split; [auto|cbn; lia]).
    - destruct (lo c); injection E as <- <-; exists [c]; (split; [auto|cbn; lia]). }
  assert (Hp' : p + length t - length r = p + length u) by (rewrite Hu, app_length; lia). rewrite Hp'.
  split.
  { pose proof Ht as Ht2. rewrite Hu in Ht2. apply text_at_suffix in Ht2. eapply text_at_valid; eauto.
    intros e' ->. cbn in Hv. lia. }
  split.
  { destruct t as [|c t]; [|discriminate]. cbn in E. injection E as <- <-. intros _. split; [auto|]. destruct u; [cbn; lia|discriminate]. }
  split.
  { intro Hm. assert (t <> []) as Htn by (destruct t; [discriminate|discriminate]).
    split; [|apply Hne in Htn; lia]. eapply dl16_scalar; eauto. destruct Ht as (pre & post & _ & _ & Hz & _). exact Hz. }
  intros i Hi. destruct Ht as (pre & post & Hm & Hl & Hz & _). rewrite Hm, nth_error_app2 by lia.
  assert (i - length pre < length t) as Hlt by (rewrite Hu, app_length; lia).
  rewrite nth_error_app1 by auto. destruct (nth_error t (i - length pre)) as [x|] eqn:En.
  - exists x. split; [auto|]. rewrite Forall_forall in Hz. apply Hz. eapply nth_error_In; eauto.
  - apply nth_error_None in En. lia.
Qed.

Example c21_example : valid_iter [97; 226; 130; 172; 0]%N None 1 /\ next8 [97; 226; 130; 172; 0]%N None 1 = Some (8364%N, 4) /\
  valid_iter [55357; 56832; 5]%N (Some 1) 0 /\ next16 [55357; 56832; 5]%N (Some 1) 0 = Some (65533%N, 1) /\
  valid_iter [255; 255; 255; 255; 255; 97; 98; 99]%N (Some 7) 0.
Proof.
  split; [cbn; tauto|]. split; [vm_compute; reflexivity|]. split; [cbn; lia|]. split; [vm_compute; reflexivity|cbn; lia].
Qed.

(** UTF-8 next() can return 0 in the middle of the text: everything after an overlong NUL (or after a value whose bits
    are all zero) is silently dropped by every caller that loops until 0. *)
Theorem c21_utf8_zero_only_at_end_refuted :
  ~ (forall mem e p v p', valid_iter mem e p -> next8 mem e p = Some (v, p') -> v = 0%N -> more mem e p' = Some false).
Proof.
  intro H. specialize (H [192; 128; 97; 98; 0]%N None 0 0%N 2).
  assert (valid_iter [192; 128; 97; 98; 0]%N None 0) as Hv by (cbn; tauto).
  specialize (H Hv eq_refl eq_refl). vm_compute in H. discriminate.
Qed.

(** UTF-8 decoding accepts encoded surrogates. *)
Theorem c21_utf8_never_surrogate_refuted :
  ~ (forall mem e p v p', valid_iter mem e p -> next8 mem e p = Some (v, p') -> ~ (55296 <= v < 57344)%N).
Proof.
  intro H. specialize (H [237; 160; 128; 0]%N None 0 55296%N 3).
  assert (valid_iter [237; 160; 128; 0]%N None 0) as Hv by (cbn; tauto).
  apply (H Hv eq_refl). lia.
Qed.

(** ** C22 *)

(** For every input there is one full conversion; a target with [max] units gets the longest prefix of it that leaves
    room for the NUL, which follows it; nothing else in the target memory changes; the count returned is the number of
    units before the NUL; and a null target returns the length of the full conversion. *)
Theorem c22_to_utf16_bounded : forall mem e p, valid_iter mem e p -> exists fullc,
  (forall buf max, max <= length buf -> exists p', to_utf16 mem (Some buf) max e p =
     Some (Nat.min (length fullc) (max - 1), Some (target buf max fullc), p')) /\
  (forall max, exists p', to_utf16 mem None max e p = Some (length fullc, None, p')).
Proof.
  intros mem e p Hv. destruct (valid_iter_text mem e p Hv) as (t & Ht).
  exists (full d8 split16 65536 t). split.
  - intros buf max Hm. destruct (to16_target mem e p t buf max Ht Hm) as (p' & Hp & _). eauto.
  - intro max. destruct (convert_null mem e d8 (next8 mem e) (fun _ => True) split16 65536 d8_decoder (fun _ _ _ => I)
      (fun p t v r => next8_text mem e p t v r) max t p I Ht) as (p' & Hp & _). eauto.
Qed.

(** The same for to_utf8; the full conversion is moreover always well-formed UTF-8, whatever the UTF-16 input. *)
Theorem c22_to_utf8_bounded : forall mem e p, valid_iter mem e p -> Forall (fun u => u < 65536)%N mem -> exists vs,
  Forall scalar vs /\
  (forall buf max, max <= length buf -> exists p', to_utf8 mem (Some buf) max e p =
     Some (Nat.min (length (flat_map utf8 vs)) (max - 1), Some (target buf max (flat_map utf8 vs)), p')) /\
  (forall max, exists p', to_utf8 mem None max e p = Some (length (flat_map utf8 vs), None, p')).
Proof.
  intros mem e p Hv Hun. destruct (valid_iter_text mem e p Hv) as (t & Ht).
  assert (Forall (fun u => u < 65536)%N t /\ Forall (fun u => u <> 0%N) t) as [Hut Hz].
  { destruct Ht as (pre & post & -> & _ & Hz & _). split; [|auto].
    apply Forall_app in Hun as [_ Hun]. apply Forall_app in Hun. tauto. }
  exists (decode16 t).
  assert (Forall scalar (decode16 t)) as Hsc by (apply decode16_scalars; auto).
  assert (full dl16 split8 256 t = flat_map utf8 (decode16 t)) as Hf by (apply full8_scalars; auto).
  split; [auto|]. rewrite <- Hf. split.
  - intros buf max Hm. destruct (to8_target mem e p t buf max Hut Ht Hm) as (p' & Hp & _). eauto.
  - intro max.
    destruct (convert_null mem e dl16 (next16 mem e) (fun t => Forall (fun x => x < 65536)%N t) split8 256 d16_decoder units_app
      (fun p t v r => next16_eq mem e p t v r) max t p Hut Ht) as (p' & Hp & _). eauto.
Qed.

(** What [target] says: a NUL terminated prefix, unchanged memory after it, unchanged size. *)
Theorem c22_target_meaning : forall buf max fullc, 1 <= max <= length buf ->
  let n := Nat.min (length fullc) (max - 1) in
  length (target buf max fullc) = length buf /\ n < max /\
  firstn n (target buf max fullc) = firstn n fullc /\ nth_error (target buf max fullc) n = Some 0%N /\
  skipn (S n) (target buf max fullc) = skipn (S n) buf.
Proof.
  intros buf max fullc H n. destruct max as [|m]; [lia|]. unfold target. cbv zeta.
  replace (S m - 1) with m in n by lia.
  assert (length (firstn m fullc) = n) as Hn by (rewrite firstn_length; lia). rewrite Hn.
  split; [rewrite app_length; cbn [length]; rewrite skipn_length, Hn; lia|]. split; [lia|].
  split; [rewrite firstn_app_exact by auto; subst n;
          destruct (Nat.le_gt_cases (length fullc) m); [rewrite !firstn_all2 by lia; auto|f_equal; lia]|].
  split; [rewrite nth_error_app2, Hn, Nat.sub_diag by lia; reflexivity|].
  rewrite skipn_app, Hn, skipn_all2 by lia. replace (S n - n) with 1 by lia. reflexivity.
Qed.

Example c22_example : valid_iter (flat_map utf8 exvs ++ [0%N]) None 0 /\
  to_utf16 (flat_map utf8 exvs ++ [0%N]) (Some (repeat 7%N 8)) 4 None 0 = Some (3, Some [97; 233; 8364; 0; 7; 7; 7; 7]%N, 6).
Proof. split; [cbn; tauto|vm_compute; reflexivity]. Qed.

(** Truncation is at unit boundaries: the written prefix can end inside a character, even for well-formed input. *)
Theorem c22_truncation_at_character_refuted :
  ~ (forall vs buf max n w p', Forall scalar vs -> max <= length buf ->
       to_utf8 (flat_map utf16 vs ++ [0%N]) (Some buf) max None 0 = Some (n, Some w, p') ->
       exists vs', Forall scalar vs' /\ firstn n w = flat_map utf8 vs').
Proof.
  intro H. destruct (H [233%N] [0; 0]%N 2 1 [195; 0]%N 1) as (vs' & Hs & He).
  - constructor; [unfold scalar; lia|constructor].
  - cbn; lia.
  - vm_compute; reflexivity.
  - cbn [firstn] in He. destruct Hs as [|v vs' Hv Hvs]; [discriminate|]. cbn [flat_map] in He. unfold utf8 in He at 1.
    destruct (N.ltb_spec v 128); [injection He as He _; lia|].
    destruct (N.ltb_spec v 2048); [discriminate|]. destruct (N.ltb_spec v 65536); discriminate.
Qed.

(** ** C57: char_count *)

Lemma count8_text mem t : forall p fuel n post, Forall (fun u => u <> 0%N) t -> skipn p mem = t ++ 0%N :: post -> length t < fuel ->
  count8 mem fuel p n = Some (n + length (filter (fun c => negb (N.land c 192 =? 128)%N) t)).
Proof.
  induction t as [|c t IH]; intros p fuel n post Hz Hm Hf; destruct fuel as [|k]; try lia; cbn [count8].
  - assert (nth_error mem p = Some 0%N) as ->; [|cbn; f_equal; lia].
    rewrite <- (firstn_skipn p mem), Hm. assert (length (firstn p mem) = p).
    { rewrite firstn_length. assert (length (skipn p mem) > 0) by (rewrite Hm; cbn; lia). rewrite skipn_length in *. lia. }
    rewrite nth_error_app2 by lia. rewrite H, Nat.sub_diag. reflexivity.
  - assert (nth_error mem p = Some c) as ->.
    { rewrite <- (firstn_skipn p mem), Hm. assert (length (firstn p mem) = p).
      { rewrite firstn_length. assert (length (skipn p mem) > 0) by (rewrite Hm; cbn; lia). rewrite skipn_length in *. lia. }
      rewrite nth_error_app2 by lia. rewrite H, Nat.sub_diag. reflexivity. }
    pose proof (Forall_inv Hz) as Hc. cbn beta in Hc. replace (c =? 0)%N with false by lia.
    rewrite (IH (S p) k _ post); [|exact (Forall_inv_tail Hz)| |cbn in Hf; lia].
    + cbn [filter]. destruct (N.land c 192 =? 128)%N; cbn [negb length]; f_equal; lia.
    + rewrite <- Nat.add_1_r, skipn_add, Hm. reflexivity.
Qed.

Lemma lead_not_cont v : scalar v -> length (filter (fun c => negb (N.land c 192 =? 128)%N) (utf8 v)) = 1.
Proof.
  intro H. apply scalar_bound in H.
  assert (Hc : forall x, (x < 64)%N -> (N.land (128 + x) 192 =? 128)%N = true).
  { intros x Hx. destruct (cont_land x Hx) as [_ ->]. reflexivity. }
  unfold utf8. destruct (N.ltb_spec v 128) as [H1|H1]; [|destruct (N.ltb_spec v 2048) as [H2|H2]; [|destruct (N.ltb_spec v 65536) as [H3|H3]]];
    cbn [filter]; rewrite ?Hc by lia; cbn [negb].
  - assert (N.land v 192 =? 128 = false)%N as ->; [|reflexivity].
    apply negb_true_iff. clear - H1. revert v H1. apply (forall_lt (fun v => negb (N.land v 192 =? 128)%N) 128). vm_compute; reflexivity.
  - destruct (lead2_land (v / 64)) as (-> & _); [lia|]. reflexivity.
  - destruct (lead3_land (v / 4096)) as (-> & _); [lia|]. reflexivity.
  - destruct (lead4_land (v / 262144)) as (-> & _); [lia|]. reflexivity.
Qed.

Theorem c57_char_count_utf8 : forall vs post, Forall scalar vs ->
  char_count8 (flat_map utf8 vs ++ 0%N :: post) 0 = Some (length vs).
Proof.
  intros vs post Hs. unfold char_count8. rewrite (count8_text _ (flat_map utf8 vs) 0 _ 0 post).
  - f_equal. cbn [plus]. induction Hs as [|v vs Hv Hvs IH]; [reflexivity|].
    cbn [flat_map]. rewrite filter_app, app_length, lead_not_cont, IH by auto. reflexivity.
  - apply nonzeros; [apply nonzero8|auto].
  - reflexivity.
  - rewrite app_length. lia.
Qed.

Lemma count16_text vs : forall mem p fuel n post, Forall scalar vs -> skipn p mem = flat_map utf16 vs ++ 0%N :: post ->
  length vs < fuel -> count16 mem fuel p n = Some (n + length vs).
Proof.
  induction vs as [|v vs IH]; intros mem p fuel n post Hs Hm Hf; destruct fuel as [|k]; try lia; cbn [count16].
  - assert (nth_error mem p = Some 0%N) as ->; [|cbn; f_equal; lia].
    rewrite <- (firstn_skipn p mem), Hm. assert (length (firstn p mem) = p).
    { rewrite firstn_length. assert (length (skipn p mem) > 0) by (rewrite Hm; cbn; lia). rewrite skipn_length in *. lia. }
    rewrite nth_error_app2 by lia. rewrite H, Nat.sub_diag. reflexivity.
  - inversion_clear Hs as [|? ? Hv Hvs]. pose proof (scalar_bound v Hv) as Hb. unfold scalar in Hv.
    assert (Hnth : forall i, nth_error mem (p + i) = nth_error (flat_map utf16 (v :: vs) ++ 0%N :: post) i).
    { intro i. rewrite <- Hm. rewrite <- (firstn_skipn p mem) at 1.
      assert (length (firstn p mem) = p).
      { rewrite firstn_length. assert (length (skipn p mem) > 0) by (rewrite Hm, app_length; cbn; lia). rewrite skipn_length in *. lia. }
      rewrite nth_error_app2 by lia. f_equal. lia. }
    pose proof (Hnth 0) as H0. rewrite Nat.add_0_r in H0. rewrite H0.
    pose proof (Hnth 1) as H1. rewrite Nat.add_1_r in H1. rewrite H1.
    cbn [flat_map] in *. rewrite <- app_assoc in *. cbn [length] in *.
    unfold utf16 in Hm at 1 |- *. destruct (N.ltb_spec v 65536) as [H|H]; cbn [app nth_error] in *.
    + replace (v =? 0)%N with false by lia. fold (hi v). rewrite hi_iff by auto.
      replace ((55296 <=? v) && (v <? 56320))%N with false by lia.
      rewrite (IH mem (S p) k (S n) post); auto; [f_equal; lia| |lia].
      rewrite <- Nat.add_1_r, skipn_add, Hm. reflexivity.
    + replace (55296 + (v - 65536) / 1024 =? 0)%N with false by lia.
      fold (hi (55296 + (v - 65536) / 1024)). rewrite hi_iff by lia.
      replace ((55296 <=? 55296 + (v - 65536) / 1024) && (55296 + (v - 65536) / 1024 <? 56320))%N with true by lia.
      fold (lo (56320 + (v - 65536) mod 1024)). rewrite lo_iff by lia.
      replace ((56320 <=? 56320 + (v - 65536) mod 1024) && (56320 + (v - 65536) mod 1024 <? 57344))%N with true by lia.
      rewrite (IH mem (S (S p)) k (S n) post); auto; [f_equal; lia| |lia].
      replace (S (S p)) with (p + 2) by lia. rewrite skipn_add, Hm. reflexivity.
Qed.

Theorem c57_char_count_utf16 : forall vs post, Forall scalar vs ->
  char_count16 (flat_map utf16 vs ++ 0%N :: post) 0 = Some (length vs).
Proof.
  intros vs post Hs. unfold char_count16. rewrite (count16_text vs _ 0 _ 0 post); auto.
  rewrite app_length. cbn [length].
  assert (length vs <= length (flat_map utf16 vs)); [|lia].
  clear Hs. induction vs as [|v vs IH]; [auto|]. cbn [flat_map length]. rewrite app_length.
  assert (1 <= length (utf16 v)); [|lia]. unfold utf16. destruct (v <? 65536)%N; cbn; lia.
Qed.

Example c57_example : Forall scalar exvs /\ char_count8 (flat_map utf8 exvs ++ [0%N]) 0 = Some 4.
Proof. split; [apply c20_example|vm_compute; reflexivity]. Qed.

Print Assumptions c20_utf8_to_utf16.
Print Assumptions c20_utf16_to_utf8.
Print Assumptions c20_round_trips.
Print Assumptions c21_utf8_total.
Print Assumptions c21_utf16_total.
Print Assumptions c21_utf8_zero_only_at_end_refuted.
Print Assumptions c21_utf8_never_surrogate_refuted.
Print Assumptions c22_to_utf16_bounded.
Print Assumptions c22_to_utf8_bounded.
Print Assumptions c22_target_meaning.
Print Assumptions c22_truncation_at_character_refuted.
Print Assumptions c57_char_count_utf8.
Print Assumptions c57_char_count_utf16.
