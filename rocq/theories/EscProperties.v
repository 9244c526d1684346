(** C41, C42: terminal output is taken apart by the ECMA-48 grammar, whole or in pieces. *)
From Verif Require Import Base UtfModel UtfSpec UtfProofs EscModel EscSpec EscChunkSpec EscProofs EscSplit EscChunk.

(** C41.  Well formed output: one code for each piece of text and each control function, of the right kind, with
    exactly its text, and the state is ready for more. *)
Theorem c41_tokens : forall ks ty cod,
  Forall kok ks -> separated ks -> Forall (fun k => (N.of_nat (length (bytes_of (ktext k))) < 65536)%N) ks ->
  exists l s, parse (fresh ty cod) (bytes_of (flat_map ktext ks)) = Some (l, s) /\ map cview l = map kcode ks /\ e_st s = SUnk.
Proof.
  intros ks ty cod Hk Hp Hs. destruct (parse_tokens ks ty cod Hk Hs Hp) as (l & s & E & Hm & Hst & _). exists l, s. auto.
Qed.
Print Assumptions c41_tokens.

(** C41.  Any bytes at all: iteration ends, and the codes are the text in order, without what begins with a control
    introducer and is not a control function. *)
Theorem c41_splits : forall t ty cod, (N.of_nat (length t) < 65536)%N ->
  exists l s, parse (fresh ty cod) t = Some (l, s) /\ splits t (map snd l).
Proof. intros t ty cod. apply parse_splits. Qed.
Print Assumptions c41_splits.
Theorem c41_terminates : forall t ty cod, exists l s, parse (fresh ty cod) t = Some (l, s).
Proof. intros t ty cod. apply parse_total. Qed.
Print Assumptions c41_terminates.

(** Text that holds no control introducer and no NUL is reported whole. *)
Lemma splits_all t l : splits t l -> (forall p q, t = p ++ q -> q <> [] -> fst (d8 q) <> 0%N /\ ~ introducer (fst (d8 q))) -> concat l = t.
Proof.
  induction 1 as [t H|x t l Hx H IH|p t l Hp Hi H IH]; intro Hc.
  - destruct t as [|b t]; [reflexivity|]. destruct (Hc [] (b :: t) eq_refl ltac:(discriminate)) as [A B]. decompose [or] H; [discriminate|contradiction|contradiction].
  - cbn [concat]. f_equal. apply IH. intros p q E Hq. apply (Hc (x ++ p) q); [rewrite <- app_assoc, E; reflexivity|exact Hq].
  - exfalso. destruct (Hc [] (p ++ t) eq_refl ltac:(destruct p; [congruence|discriminate])) as [_ B]. contradiction.
Qed.
Theorem c41_plain : forall t ty cod, (N.of_nat (length t) < 65536)%N ->
  (forall p q, t = p ++ q -> q <> [] -> fst (d8 q) <> 0%N /\ ~ introducer (fst (d8 q))) ->
  exists l s, parse (fresh ty cod) t = Some (l, s) /\ concat (map snd l) = t.
Proof.
  intros t ty cod Hn Hc. destruct (parse_splits ty cod t Hn) as (l & s & E & Hs). exists l, s. split; [exact E|]. exact (splits_all t _ Hs Hc).
Qed.
Print Assumptions c41_plain.

(** C42.  Output written in any number of pieces, cut between characters. *)
Theorem c42_chunks : forall ks ws ty cod,
  Forall kok ks -> separated ks -> Forall (fun k => (N.of_nat (length (bytes_of (ktext k))) < 65536)%N) ks -> Forall kflat ks ->
  concat ws = flat_map ktext ks ->
  exists l s, writes (fresh ty cod) (map bytes_of ws) = Some (l, s) /\ merge (map cview l) = map kcode ks /\ e_st s = SUnk.
Proof. intros ks ws ty cod Hk Hp Hs Hf Hw. apply writes_tokens; assumption. Qed.
Print Assumptions c42_chunks.

(** "hi", red, a title with an embedded OSC, newline, two-byte text, shift-out in 7 bits *)
Definition ex_tokens : list token :=
  [KText [104; 105]; KCsi true [51; 49] [] 109; KStr true 93 [48; 59; 65] [27; 92]; KText [233; 32]; KC0 10; KC1 true 77; KIcf 99; KSos true [1; 2] [27; 92]]%N.
Lemma ex_tokens_ok : Forall kok ex_tokens /\ separated ex_tokens /\ Forall (fun k => (N.of_nat (length (bytes_of (ktext k))) < 65536)%N) ex_tokens /\ Forall kflat ex_tokens.
Proof.
  unfold ex_tokens. split; [|split; [|split]].
  - repeat (apply Forall_cons || apply Forall_nil); (split; [cbn [ktext intro app]; repeat (apply Forall_cons || apply Forall_nil); unfold scalar; lia|]).
    + split; [repeat constructor; lia|]. eexists _, _. split; [reflexivity|lia].
    + split; [repeat (apply Forall_cons || apply Forall_nil); lia|]. split; [constructor|lia].
    + split; [cbn; auto|]. split; [|cbn; auto]. repeat (apply sb_char; [unfold strchar; lia|]). apply sb_nil.
    + split; [repeat constructor; lia|]. eexists _, _. split; [reflexivity|lia].
    + lia.
    + split; [lia|]. cbn. intros H. decompose [or] H; try discriminate; contradiction.
    + lia.
    + split; [repeat (apply Forall_cons || apply Forall_nil); lia|cbn; auto].
  - cbn [separated]. split; [eexists _, _; split; [reflexivity|lia]|]. split; [eexists _, _; split; [reflexivity|lia]|]. exact I.
  - repeat (apply Forall_cons || apply Forall_nil); vm_compute; reflexivity.
  - repeat (apply Forall_cons || apply Forall_nil); cbn [kflat]; try exact I; repeat (apply Forall_cons || apply Forall_nil); unfold strchar; lia.
Qed.
Example c41_example : exists l s, parse (fresh TNone 0) (bytes_of (flat_map ktext ex_tokens)) = Some (l, s) /\ map cview l = map kcode ex_tokens /\ e_st s = SUnk.
Proof. destruct ex_tokens_ok as (A & B & C & _). apply c41_tokens; assumption. Qed.
Example c42_example : exists l s,
  writes (fresh TNone 0) (map bytes_of [[104]; [105; 27]; []; [91; 51]; [49; 109; 27; 93; 48; 59; 65; 27]; [92; 233]; [32; 10; 27]; [77; 27; 99; 27; 88; 1]; [2; 27; 92]]%N) = Some (l, s) /\
  merge (map cview l) = map kcode ex_tokens /\ e_st s = SUnk.
Proof. destruct ex_tokens_ok as (A & B & C & D). apply c42_chunks; auto. Qed.
(** an OSC inside an OSC is one code *)
Example c41_nested_example : exists l s, parse (fresh TNone 0) (bytes_of (flat_map ktext [KStr true 93 [48; 27; 93; 49; 7; 50] [7]]%N)) = Some (l, s) /\
  map cview l = map kcode [KStr true 93 [48; 27; 93; 49; 7; 50] [7]]%N /\ e_st s = SUnk.
Proof.
  apply c41_tokens.
  - constructor; [|constructor]. split; [cbn [ktext intro app]; repeat (apply Forall_cons || apply Forall_nil); unfold scalar; lia|]. split; [cbn; auto|]. split; [|cbn; auto].
    apply sb_char; [unfold strchar; lia|]. apply (sb_bel [49%N] [50%N]); (apply sb_char; [unfold strchar; lia|apply sb_nil]).
  - exact I.
  - constructor; [vm_compute; reflexivity|constructor].
Qed.
Example c41_plain_example : exists l s, parse (fresh TNone 0) [104; 10; 105]%N = Some (l, s) /\ concat (map snd l) = [104; 10; 105]%N.
Proof.
  apply c41_plain; [reflexivity|]. intros p q E Hq.
  destruct p as [|a [|b [|c [|d p]]]]; cbn [app] in E; try discriminate E; [subst q|inversion E; subst q..]; try congruence; unfold introducer; (split; [vm_compute; discriminate|]; vm_compute; intros [H|[H _]]; [discriminate H|apply H; reflexivity]).
Qed.

(** Not so. *)

(** Every byte of the input is in some code. *)
Definition c41_lossless : Prop := forall t l s, parse (fresh TNone 0) t = Some (l, s) -> e_st s = SUnk -> concat (map snd l) = t.
(** a control sequence broken off by a control character is dropped: ESC [ 1 ^A *)
Theorem c41_lossless_refuted : ~ c41_lossless.
Proof. intro H. specialize (H [27; 91; 49; 1]%N _ _ eq_refl eq_refl). vm_compute in H. discriminate. Qed.
Print Assumptions c41_lossless_refuted.

(** The type of a code depends on its own text only. *)
Definition c41_typed : Prop := forall k t ty cod l s l' s', kok k -> parse (fresh ty cod) t = Some (l, s) -> parse (fresh ty cod) (bytes_of (ktext k) ++ t) = Some (l', s') ->
  map cview l' = kcode k :: map cview l.
(** ESC ( B at the end of the text has the type of the code before it: after ESC [ m it is a "C1 CSI" *)
Theorem c41_typed_refuted : ~ c41_typed.
Proof.
  intro H. specialize (H (KCsi true [] [] 109%N) [27; 40; 66]%N TChars 0%N). eassert (kok (KCsi true [] [] 109%N)) as Hk.
  { split; [cbn; repeat constructor; unfold scalar; lia|]. split; [constructor|]. split; [constructor|lia]. }
  specialize (H _ _ _ _ Hk eq_refl eq_refl). vm_compute in H. discriminate.
Qed.
Print Assumptions c41_typed_refuted.

(** Text is reported whatever its length. *)
Definition c41_any_length : Prop := forall t ty cod l s, kok (KText t) -> parse (fresh ty cod) (bytes_of t) = Some (l, s) -> l <> [].
(** the length is an unsigned short: a run of text of 65536 bytes is taken for the end *)
Lemma long_text_lost n : N.of_nat n = 65536%N -> kok (KText (repeat 97%N n)) /\ exists s, parse (fresh TNone 0) (bytes_of (repeat 97%N n)) = Some ([], s).
Proof.
  intro Hn. assert (Hk : kok (KText (repeat 97%N n))).
  { split; [apply Forall_forall; intros c Hc; apply repeat_spec in Hc; subst; unfold scalar; lia|]. split; [apply Forall_forall; intros c Hc; apply repeat_spec in Hc; subst; lia|].
    destruct n as [|n]; [discriminate|]. exists 97%N, (repeat 97%N n). split; [reflexivity|lia]. }
  split; [exact Hk|]. assert (El : length (bs (repeat 97%N n)) = n) by (clear; induction n as [|n IH]; [reflexivity|cbn; f_equal; exact IH]).
  unfold parse. cbn [codes]. pose proof (enext_text (repeat 97%N n) TNone 0 [] [] Hk ltac:(cbn; lia)) as E. rewrite app_nil_r in E. unfold bs in E, El. unfold fresh. rewrite E.
  assert (Ez : (len16 (bytes_of (repeat 97%N n)) =? 0)%N = true) by (unfold len16; rewrite El, Hn; reflexivity). rewrite Ez. eexists. reflexivity.
Qed.
Theorem c41_any_length_refuted : ~ c41_any_length.
Proof.
  intro H. destruct (long_text_lost (N.to_nat 65536) (N2Nat.id _)) as [Hk [s E]]. exact (H _ _ _ _ _ Hk E eq_refl).
Qed.
Print Assumptions c41_any_length_refuted.

(** Pieces, for all well formed output. *)
Definition c42_all : Prop := forall ks ws ty cod l s,
  Forall kok ks -> separated ks -> concat ws = flat_map ktext ks -> writes (fresh ty cod) (map bytes_of ws) = Some (l, s) -> merge (map cview l) = map kcode ks.
(** an OSC within an OSC, cut after the embedded introducer: the embedded BEL then ends the outer string *)
Theorem c42_all_refuted : ~ c42_all.
Proof.
  intro H. specialize (H [KStr true 93 [48; 27; 93; 49; 7; 50] [7]]%N [[27; 93; 48; 27; 93]; [49; 7; 50; 7]]%N TNone 0%N).
  assert (Hk : Forall kok [KStr true 93 [48; 27; 93; 49; 7; 50] [7]]%N).
  { constructor; [|constructor]. split; [cbn [ktext intro app]; repeat (apply Forall_cons || apply Forall_nil); unfold scalar; lia|]. split; [cbn; auto|]. split; [|cbn; auto].
    apply sb_char; [unfold strchar; lia|]. apply (sb_bel [49%N] [50%N]); (apply sb_char; [unfold strchar; lia|apply sb_nil]). }
  destruct (writes (fresh TNone 0) (map bytes_of [[27; 93; 48; 27; 93]; [49; 7; 50; 7]]%N)) as [[l s]|] eqn:E; [|vm_compute in E; discriminate].
  specialize (H l s Hk I eq_refl eq_refl). vm_compute in E. injection E as <- <-. vm_compute in H. discriminate.
Qed.
Print Assumptions c42_all_refuted.

(** Cuts inside a character. *)
Definition c42_bytes : Prop := forall k a b ty cod l s, kok k -> bytes_of (ktext k) = a ++ b -> writes (fresh ty cod) [a; b] = Some (l, s) -> merge (map cview l) = [kcode k].
(** the two bytes of U+00DB: the second, alone, reads as ESC.  (ecma48_terminal_out.cpp 228-240 puts characters
    together again when they are written one byte at a time, not otherwise.) *)
Theorem c42_bytes_refuted : ~ c42_bytes.
Proof.
  intro H. specialize (H (KText [97; 219; 98]%N) [97; 195]%N [155; 98]%N TNone 0%N). eassert (Hk : kok (KText [97; 219; 98]%N)).
  { split; [cbn; repeat constructor; unfold scalar; lia|]. split; [repeat constructor; lia|]. eexists _, _. split; [reflexivity|lia]. }
  destruct (writes (fresh TNone 0) [[97; 195]; [155; 98]]%N) as [[l s]|] eqn:E; [|vm_compute in E; discriminate].
  specialize (H l s Hk eq_refl eq_refl). vm_compute in E. injection E as <- <-. vm_compute in H. discriminate.
Qed.
Print Assumptions c42_bytes_refuted.
