(** C24: tokenising partitions the input. *)
From Verif Require Import Base UtfModel UtfSpec UtfProofs TokModel TokSpec TokProofs.

(** The characters of a text with the number of units each occupies and whether it is an unquoted delimiter. *)
Definition marked (enc : N -> list N) (delims : list N) (pairs : list (N * N)) (vs : list N) : list (N * nat * bool) :=
  map (fun x => (fst x, length (enc (fst x)), snd x))
      (combine vs (unquoted_delims (fun c => existsb (N.eqb c) delims) (closing pairs) None vs)).

Definition plain_pairs (pairs : list (N * N)) : Prop :=
  Forall (fun q => 0 < fst q < 128 /\ 0 < snd q < 128)%N pairs.

Lemma view_marked enc delims pairs vs :
  view (map (fun v => (v, enc v)) vs) (mark delims pairs None (map (fun v => (v, enc v)) vs)) = marked enc delims pairs vs.
Proof.
  unfold view, marked, mark, isd. rewrite map_map. cbn [fst]. rewrite map_id.
  generalize (unquoted_delims (fun c => existsb (N.eqb c) delims) (closing pairs) None vs). intro ms.
  revert ms. induction vs as [|v vs IH]; intros [|m ms]; cbn; auto. f_equal. apply IH.
Qed.

(** UTF-8 (str_tokeniser): for every well formed text. *)
Theorem c24_tokens_utf8 : forall mem e p vs delims pairs,
  Forall scalar vs -> text_at mem e p (flat_map utf8 vs) ->
  Forall (fun d => d < 255)%N delims -> plain_pairs pairs ->
  exists res, tokens false mem e delims pairs p = Some res /\
    fields p (marked utf8 delims pairs vs) res.
Proof.
  intros mem e p vs delims pairs Hs Ht Hd Hp. unfold tokens.
  rewrite <- view_marked. pose proof (text_at_len _ _ _ _ Ht) as Hl.
  apply all_tokens_ok with (dl := d8) (okt := fun _ => True) (mem := mem) (e := e) (t := flat_map utf8 vs); auto; try lia.
  - exact d8_decoder.
  - intros. eapply next8_eq; eauto.
  - apply chunks_enc; [reflexivity|]. intros v r Hv. rewrite Forall_forall in Hs. apply Hs, scalar_bound in Hv.
    split; [apply dl8_utf8; lia|lia].
Qed.
Print Assumptions c24_tokens_utf8.

(** UTF-16 (wstr_tokeniser). *)
Theorem c24_tokens_utf16 : forall mem e p vs delims pairs,
  Forall scalar vs -> text_at mem e p (flat_map utf16 vs) ->
  Forall (fun d => d < 255)%N delims -> plain_pairs pairs ->
  exists res, tokens true mem e delims pairs p = Some res /\
    fields p (marked utf16 delims pairs vs) res.
Proof.
  intros mem e p vs delims pairs Hs Ht Hd Hp. unfold tokens.
  rewrite <- view_marked. pose proof (text_at_len _ _ _ _ Ht) as Hl.
  assert (Hu : Forall (fun u => u < 65536)%N (flat_map utf16 vs)).
  { clear - Hs. induction Hs as [|v vs Hv Hvs IH]; [constructor|]. cbn [flat_map]. apply Forall_app. split; [|exact IH].
    apply scalar_bound in Hv. unfold utf16. destruct (N.ltb_spec v 65536); repeat (constructor; [lia|]); constructor. }
  apply all_tokens_ok with (dl := dl16) (okt := Forall (fun u => u < 65536)%N) (mem := mem) (e := e) (t := flat_map utf16 vs);
    auto; try lia.
  - exact d16_decoder.
  - intros u r H. apply Forall_app in H. apply H.
  - intros. eapply next16_eq; eauto.
  - apply chunks_enc; [reflexivity|]. intros v r Hv. rewrite Forall_forall in Hs. apply Hs in Hv.
    split; [apply dl16_utf16; auto|apply scalar_bound in Hv; lia].
Qed.
Print Assumptions c24_tokens_utf16.

(** The tokens, concatenated with what lies between them, are the whole text: consequences of [fields] alone. *)
Lemma fields_bounds o cs res : fields o cs res ->
  forall d s n, In (d, s, n) res -> o <= s /\ s + n <= o + units cs.
Proof.
  assert (Hu : forall a b, units (a ++ b) = units a + units b).
  { intros. unfold units. rewrite map_app, list_sum_app. reflexivity. }
  induction 1 as [|o ds w rest res Hds Hw Htx Hr Hf IH]; intros d s n Hin; [destruct Hin|].
  rewrite !Hu. destruct Hin as [Heq|Hin].
  - injection Heq as <- <- <-. lia.
  - apply IH in Hin. lia.
Qed.

Inductive ordered : nat -> list (N * nat * nat) -> Prop :=
| O_nil o : ordered o []
| O_cons o d s n l : o <= s -> 0 < n -> ordered (s + n) l -> ordered o ((d, s, n) :: l).

(** For arbitrary bytes, well formed or not: the tokeniser never reads outside of the input, terminates, and yields
    nonempty spans in order inside the text. *)
Theorem c24_any_bytes : forall mem e p t delims pairs,
  text_at mem e p t -> Forall (fun d => d < 255)%N delims -> plain_pairs pairs ->
  exists res, tokens false mem e delims pairs p = Some res /\ ordered p res /\
    forall d s n, In (d, s, n) res -> p <= s /\ s + n <= p + length t.
Proof.
  intros mem e p t delims pairs Ht Hd Hp. unfold tokens.
  destruct (chunks_exist d8 d8_decoder (length t) t (le_n _)) as [cs Hcs].
  pose proof (text_at_len _ _ _ _ Ht) as Hl.
  destruct (all_tokens_ok mem e d8 (fun _ => True) (next8 mem e) d8_decoder ltac:(auto)
              ltac:(intros; eapply next8_eq; eauto) delims pairs Hd Hp (S (length mem)) (S (length mem)) cs t p I Ht Hcs
              ltac:(lia) ltac:(lia)) as (res & Hres & Hf).
  exists res. split; [exact Hres|].
  assert (Hcu : mem_units cs <= length t /\ Forall (fun c => 0 < length (snd c)) cs).
  { clear - Hcs. induction Hcs as [|u r v cs Hd Hv Hc [IH1 IH2]]; [unfold mem_units; cbn; split; [lia|constructor]|].
    unfold mem_units in *. cbn [map list_sum fold_right snd]. rewrite app_length. unfold list_sum in IH1.
    split; [lia|]. constructor; auto. cbn [snd].
    destruct (dl_facts _ d8_decoder _ _ _ Hd Hv) as (u' & Hu & Hl). rewrite app_length in Hl. lia. }
  destruct Hcu as [Hcu Hpos].
  assert (Hview : units (view cs (mark delims pairs None cs)) = mem_units cs)
    by (apply view_units; symmetry; apply mark_length).
  split.
  - assert (Hvp : Forall (fun x => 0 < snd (fst x)) (view cs (mark delims pairs None cs))).
    { unfold view. clear - Hpos. generalize (mark delims pairs None cs). induction cs as [|c cs IH]; intros [|m ms]; cbn; auto.
      constructor; [exact (Forall_inv Hpos)|]. apply IH. exact (Forall_inv_tail Hpos). }
    clear - Hf Hvp. induction Hf as [|o ds w rest res Hds Hw Htx Hr Hf IH]; [constructor|].
    apply Forall_app in Hvp as [H1 H2]. apply Forall_app in H2 as [H2 H3].
    constructor; [lia| |auto]. unfold units. destruct w as [|x w]; [contradiction|].
    pose proof (Forall_inv H2) as Hx. cbn [map list_sum fold_right]. cbn beta in Hx. lia.
  - intros d s n Hin. pose proof (fields_bounds _ _ _ Hf _ _ _ Hin). lia.
Qed.
Print Assumptions c24_any_bytes.

(** peek_delims is the distance to the first non-delimiter. *)
Theorem c24_peek_delims : forall mem e p vs delims,
  Forall scalar vs -> text_at mem e p (flat_map utf8 vs) -> Forall (fun d => d < 255)%N delims ->
  exists ds rest, vs = ds ++ rest /\ Forall (fun v => In v delims) ds /\
    match rest with v :: _ => ~ In v delims | [] => True end /\
    peek_delims (next8 mem e) delims (S (length mem)) p = Some (length (flat_map utf8 ds)).
Proof.
  intros mem e p vs delims Hs Ht Hd. pose proof (text_at_len _ _ _ _ Ht) as Hl.
  destruct (peek_delims_ok mem e d8 (fun _ => True) (next8 mem e) d8_decoder ltac:(auto)
     ltac:(intros; eapply next8_eq; eauto) delims Hd (S (length mem)) (map (fun v => (v, utf8 v)) vs)
     (flat_map utf8 vs) p I Ht) as (ds & rest & Heq & Hds & Hr & Hp).
  { apply chunks_enc; [reflexivity|]. intros v r Hv. rewrite Forall_forall in Hs. apply Hs, scalar_bound in Hv.
    split; [apply dl8_utf8; lia|lia]. }
  { lia. }
  assert (Hdi : forall v, isd delims v = true <-> In v delims).
  { intro v. unfold isd. rewrite existsb_exists. split; [intros (x & Hx & E); apply N.eqb_eq in E; subst; auto|].
    intro H. exists v. split; [auto|apply N.eqb_refl]. }
  exists (map fst ds), (map fst rest). rewrite <- map_app, <- Heq, map_map. cbn [fst]. rewrite map_id.
  split; [auto|]. split; [|split].
  - apply Forall_forall. intros v Hv. apply in_map_iff in Hv as (c & <- & Hc). rewrite Forall_forall in Hds.
    apply Hdi. apply Hds; auto.
  - destruct rest as [|c rest]; [exact I|]. cbn [map]. rewrite <- Hdi. congruence.
  - rewrite Hp. f_equal.
    assert (Hall : Forall (fun c => snd c = utf8 (fst c)) ds).
    { assert (H : Forall (fun c => snd c = utf8 (fst c)) (ds ++ rest)).
      { rewrite <- Heq. apply Forall_forall. intros c Hc. apply in_map_iff in Hc as (v & <- & _). reflexivity. }
      apply Forall_app in H. apply H. }
    clear - Hall. unfold mem_units. induction ds as [|c ds IH]; [reflexivity|].
    cbn [map flat_map list_sum fold_right]. rewrite app_length, (Forall_inv Hall). f_equal. apply IH.
    exact (Forall_inv_tail Hall).
Qed.
Print Assumptions c24_peek_delims.

(** The text of a string literal. *)
Definition bs (s : string) : list N := map N_of_ascii (list_ascii_of_string s).

(** The tokens of  a "b c";;d  , é  with delimiters space and semicolon. *)
Example c24_example :
  let vs := bs "a ""b c"";;d " ++ [233%N] in
  Forall scalar vs /\ text_at (flat_map utf8 vs ++ [0%N]) None 0 (flat_map utf8 vs) /\
  tokens false (flat_map utf8 vs ++ [0%N]) None (bs " ;") [(34, 34)%N] 0 =
    Some [(0%N, 0, 1); (32%N, 2, 5); (59%N, 9, 1); (32%N, 11, 2)] /\
  add_quote_pair [] (bs """") = ([(34, 34)%N], true).
Proof.
  cbv zeta. split.
  { apply Forall_forall. intros v Hv. vm_compute in Hv. unfold scalar.
    repeat (destruct Hv as [<-|Hv]; [lia|]). destruct Hv. }
  split; [|split; vm_compute; reflexivity].
  exists [], [0%N]. split; [reflexivity|]. split; [reflexivity|]. split; [|right; split; [reflexivity|exact I]].
  apply Forall_forall. intros u Hu. vm_compute in Hu.
  repeat (destruct Hu as [<-|Hu]; [lia|]). destruct Hu.
Qed.

(** For malformed UTF-8 the partition fails: bytes of an incomplete character at the end, or everything from an
    overlong NUL on, belong neither to a token nor to the delimiters. *)
Theorem c24_malformed_refuted :
  tokens false (bs "a b" ++ [195; 0]%N) None (bs " ") [] 0 = Some [(0%N, 0, 1); (32%N, 2, 1)] /\
  tokens false (bs "a" ++ [192; 128]%N ++ bs "b c" ++ [0%N]) None (bs " ") [] 0 = Some [(0%N, 0, 1)].
Proof. split; vm_compute; reflexivity. Qed.
Print Assumptions c24_malformed_refuted.
