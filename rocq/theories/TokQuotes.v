(** C24, the quote pairs: the first four pairs given are the ones in force, in the order given; a pair of one character is closed
    by the same character, nothing and a fifth pair are refused. *)
From Verif Require Import Base UtfModel UtfSpec TokModel TokSpec TokProofs TokProperties.

(** What adding texts one after the other leaves, with the answers in order *)
Fixpoint add_pairs (quotes : list (N * N)) (texts : list (list N)) : list (N * N) * list bool :=
  match texts with
  | [] => (quotes, [])
  | t :: r => let '(q, ok) := add_quote_pair quotes t in let '(q, oks) := add_pairs q r in (q, ok :: oks)
  end.
(** The pair a text means *)
Definition pair_of (t : list N) : option (N * N) :=
  match t with [] => None | [c] => Some (c, c) | c :: d :: _ => Some (c, d) end.
Fixpoint meant (texts : list (list N)) : list (N * N) :=
  match texts with [] => [] | t :: r => match pair_of t with Some q => q :: meant r | None => meant r end end.
(** The answers: whether it is a pair, and less than four were before it *)
Fixpoint answers (before : nat) (texts : list (list N)) : list bool :=
  match texts with
  | [] => []
  | t :: r => match pair_of t with None => false :: answers before r | Some _ => (before <? 4) :: answers (S before) r end
  end.

Lemma add_pairs_from : forall texts quotes, length quotes <= 4 ->
  fst (add_pairs quotes texts) = firstn 4 (quotes ++ meant texts).
Proof.
  induction texts as [|t r IH]; intros quotes L.
  - cbn [add_pairs fst meant]. rewrite app_nil_r, firstn_all2; [reflexivity|exact L].
  - cbn [add_pairs meant]. destruct (add_quote_pair quotes t) as [q ok] eqn:E. destruct (add_pairs q r) as [q2 oks] eqn:E2.
    cbn [fst]. change q2 with (fst (q2, oks)). rewrite <- E2. clear E2 oks. unfold add_quote_pair in E.
    destruct t as [|a t]; cbn [pair_of].
    + injection E as <- <-. apply IH. exact L.
    + destruct (Nat.ltb_spec (length quotes) 4) as [LT|GE].
      * injection E as <- <-. rewrite IH by (rewrite app_length; cbn [length]; lia). rewrite <- app_assoc. destruct t; reflexivity.
      * injection E as <- <-. rewrite IH by exact L. assert (length quotes = 4) as L4 by lia.
        rewrite !firstn_app, L4, Nat.sub_diag. cbn [firstn]. destruct t; cbn [firstn]; reflexivity.
Qed.
Lemma answers_full : forall texts n, 4 <= n -> answers n texts = map (fun _ => false) texts.
Proof.
  induction texts as [|t r IH]; intros n L; [reflexivity|]. cbn [answers map]. destruct (pair_of t); rewrite IH by lia; [|reflexivity].
  destruct (Nat.ltb_spec n 4); [lia|reflexivity].
Qed.
Lemma answers_from : forall texts quotes, length quotes <= 4 -> snd (add_pairs quotes texts) = answers (length quotes) texts.
Proof.
  induction texts as [|t r IH]; intros quotes L; [reflexivity|]. cbn [add_pairs answers].
  destruct (add_quote_pair quotes t) as [q ok] eqn:E. destruct (add_pairs q r) as [q2 oks] eqn:E2. cbn [snd].
  change oks with (snd (q2, oks)). rewrite <- E2. clear E2 oks. unfold add_quote_pair in E. destruct t as [|a t]; cbn [pair_of].
  - injection E as <- <-. f_equal. apply IH. exact L.
  - destruct (Nat.ltb_spec (length quotes) 4) as [LT|GE].
    + injection E as <- <-. rewrite IH by (rewrite app_length; cbn [length]; lia). rewrite app_length, Nat.add_comm. destruct t; reflexivity.
    + injection E as <- <-. rewrite IH by exact L. rewrite answers_full by lia. destruct t; rewrite answers_full by lia; reflexivity.
Qed.

Theorem c24_quote_pairs : forall texts, add_pairs [] texts = (firstn 4 (meant texts), answers 0 texts).
Proof.
  intro texts. rewrite (surjective_pairing (add_pairs [] texts)). f_equal.
  - apply (add_pairs_from texts []). cbn [length]. lia.
  - apply (answers_from texts []). cbn [length]. lia.
Qed.
(** The tokens of a text split with quote pairs given as texts *)
Theorem c24_given_pairs : forall mem e p vs delims texts,
  Forall scalar vs -> text_at mem e p (flat_map utf8 vs) -> Forall (fun d => d < 255)%N delims ->
  Forall (Forall (fun c => 0 < c < 128)%N) texts ->
  exists res, tokens false mem e delims (fst (add_pairs [] texts)) p = Some res /\
    fields p (marked utf8 delims (firstn 4 (meant texts)) vs) res.
Proof.
  intros mem e p vs delims texts Hs Ht Hd Hp. rewrite c24_quote_pairs. cbn [fst]. apply c24_tokens_utf8; try assumption.
  assert (A : plain_pairs (meant texts)).
  { unfold plain_pairs. induction Hp as [|t r H _ IH]; [constructor|]. cbn [meant]. destruct t as [|a [|b t]]; cbn [pair_of]; [exact IH| |].
    - apply Forall_inv in H. cbv beta in *; constructor; [cbn [fst snd]; lia|exact IH].
    - pose proof (Forall_inv H) as Ha. pose proof (Forall_inv (Forall_inv_tail H)) as Hb. cbv beta in *; constructor; [cbn [fst snd]; lia|exact IH]. }
  unfold plain_pairs in *. rewrite Forall_forall in *. intros q I. apply A. rewrite <- (firstn_skipn 4 (meant texts)). apply in_or_app. left. exact I.
Qed.
Print Assumptions c24_quote_pairs.
Print Assumptions c24_given_pairs.

Example ex_pairs : add_pairs [] [bs """"; bs ""; bs "()"; bs "[]"; bs "''"; bs "<>"] =
  ([(34, 34); (40, 41); (91, 93); (39, 39)]%N, [true; false; true; true; true; false]).
Proof. reflexivity. Qed.
