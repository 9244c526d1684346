(** What reading a number looks at: from the position to the first NUL (session_stream::scan_number, 157-167, sscanf). *)
From Verif Require Import Base SsModel SsSpec SsProofs SsRead SsSim.
Open Scope nat_scope.

Definition number_text (off : nat) (s : stream) : bytes := upto_nul (skipn off (s_data s)).
(** there is a NUL at or after the end; there is one at the end *)
Definition some_nul (s : stream) : Prop := s_size s = 0 \/ exists p, s_size s <= p < s_cap s /\ nth p (s_data s) 1%N = 0%N.
Definition end_nul (s : stream) : Prop := s_size s = 0 \/ s_size s < s_cap s /\ nth (s_size s) (s_data s) 1%N = 0%N.

Lemma nth_poke d off (b : bytes) p : off + length b <= length d -> nth p (firstn off d ++ b ++ skipn (off + length b) d) 1%N = if (p <? off) || (off + length b <=? p) then nth p d 1%N else nth (p - off) b 1%N.
Proof.
  intro H. assert (L : length (firstn off d) = off) by (rewrite firstn_length; lia). destruct (p <? off) eqn:E1; cbn [orb].
  - rewrite app_nth1 by lia. rewrite <- (firstn_skipn off d) at 2. rewrite app_nth1 by lia. reflexivity.
  - rewrite app_nth2, L by lia. destruct (off + length b <=? p) eqn:E2; [|rewrite app_nth1 by lia; reflexivity]. rewrite app_nth2 by lia. rewrite <- (firstn_skipn (off + length b) d) at 2. rewrite app_nth2 by (rewrite firstn_length; lia). f_equal. rewrite firstn_length. lia.
Qed.

Section M.
Variables MX B K : nat.
Variable junk : nat -> N.
Hypothesis HB : 2 <= B.
Hypothesis HM : B <= MX.

Lemma s_write_nul (atend : bool) off buf s s' o n : inv MX s -> (if atend then end_nul s else some_nul s) -> s_write MX B junk off buf s = Some (s', o, n) -> if atend then end_nul s' else some_nul s'.
Proof.
  intros Hi Hn E. unfold s_write in E. destruct (grow_ok MX B junk HB HM off (length buf) s Hi) as (G1 & G2 & G3 & G4 & G5 & G6). set (g := grow MX B junk off (length buf) s) in *.
  assert (Hg : forall p, p < s_cap s -> nth p (s_data g) 1%N = nth p (s_data s) 1%N). { intros p Hp. rewrite <- G3. rewrite <- (firstn_skipn (s_cap s) (s_data g)) at 1. apply app_nth1. rewrite G3. exact Hp. }
  assert (Hgn : if atend then end_nul g else some_nul g).
  { destruct atend.
    - destruct Hn as [Hn|[H1 H2]]; [left; lia|]. right. rewrite G1, Hg by exact H1. split; [lia|exact H2].
    - destruct Hn as [Hn|(p & H1 & H2)]; [left; lia|]. right. exists p. rewrite G1, Hg by lia. split; [lia|exact H2]. }
  destruct (s_cap g - 1 <=? off) eqn:E1; [injection E as <- <- <-; exact Hgn|].
  set (k := Nat.min (length buf) (s_cap g - 1 - off)) in *. assert (Hl : length (firstn k buf) = k) by (rewrite firstn_length; lia). unfold s_cap in E1, G4.
  assert (Hpl : off + length (firstn k buf) <= length (s_data g)) by (unfold k, s_cap in *; lia).
  rewrite (poke_ok MX B junk HB HM) in E by exact Hpl. pose proof (poke_len MX B junk HB HM off (firstn k buf) (s_data g) Hpl) as Hdl. pose proof (nth_poke (s_data g) off (firstn k buf)) as Hnp. set (d := firstn off (s_data g) ++ firstn k buf ++ skipn (off + length (firstn k buf)) (s_data g)) in *.
  destruct (s_size g <? off + k) eqn:E2.
  - assert (Hl1 : off + k + length [0%N] <= length d) by (cbn [length]; unfold k, s_cap in *; lia). rewrite (poke_ok MX B junk HB HM) in E by exact Hl1. injection E as <- <- <-. pose proof (nth_poke d (off + k) [0%N] (off + k) Hl1) as Hz. cbn [length] in Hz. replace (off + k <? off + k) with false in Hz by lia. replace (off + k + 1 <=? off + k) with false in Hz by lia. cbn [orb] in Hz. rewrite Nat.sub_diag in Hz. cbn [nth] in Hz.
    assert (X : off + k < length (firstn (off + k) d ++ [0%N] ++ skipn (off + k + length [0%N]) d)) by (rewrite (poke_len MX B junk HB HM) by exact Hl1; change (length [0%N]) with 1 in Hl1; unfold lt; rewrite <- Nat.add_1_r; exact Hl1).
    destruct atend; right; cbn [s_size s_cap s_data]; unfold s_cap; cbn [s_data]; [split; [exact X|exact Hz]|]. exists (off + k). split; [split; [apply le_n|exact X]|exact Hz].
  - injection E as <- <- <-. destruct atend.
    + destruct Hgn as [H0|[H1 H2]]; [left; exact H0|]. right. unfold s_cap. cbn [s_size s_data]. rewrite Hnp by exact Hpl. rewrite Hl, Hdl. replace (off + k <=? s_size g) with true by lia. rewrite orb_true_r. split; [exact H1|exact H2].
    + destruct Hgn as [H0|(p & H1 & H2)]; [left; exact H0|]. right. exists p. unfold s_cap. cbn [s_size s_data]. rewrite Hnp by exact Hpl. rewrite Hl, Hdl. replace (off + k <=? p) with true by lia. rewrite orb_true_r. split; [exact H1|exact H2].
Qed.
Lemma write_text_nul (atend : bool) rest : forall pend off total s s' o n, inv MX s -> (if atend then end_nul s else some_nul s) -> write_text MX B K junk pend rest off total s = Some (s', o, n) -> if atend then end_nul s' else some_nul s'.
Proof.
  induction rest as [|c rest IH]; intros pend off total s s' o n Hi Hn E; cbn [write_text] in E.
  - destruct pend as [|x pend]; [injection E as <- <- <-; exact Hn|]. destruct (s_write MX B junk off (x :: pend) s) as [[[s1 o1] n1]|] eqn:E1; [|discriminate]. injection E as <- <- <-. exact (s_write_nul atend _ _ _ _ _ _ Hi Hn E1).
  - destruct ((c =? 10)%N || (length pend =? K)); [|exact (IH _ _ _ _ _ _ _ Hi Hn E)].
    destruct (match pend with [] => Some (s, off, 0) | _ :: _ => s_write MX B junk off pend s end) as [[[s1 o1] n1]|] eqn:E1; [|discriminate].
    assert (H1 : inv MX s1 /\ if atend then end_nul s1 else some_nul s1).
    { destruct pend as [|x pend]; [injection E1 as <- <- <-; auto|]. split; [|exact (s_write_nul atend _ _ _ _ _ _ Hi Hn E1)]. destruct (s_write_ok MX B junk HB HM off (x :: pend) s Hi) as (s2 & n2 & E2 & I2 & _). rewrite E1 in E2. injection E2 as -> _ _. exact I2. }
    destruct H1 as [I1 N1]. destruct (c =? 10)%N; [|exact (IH _ _ _ _ _ _ _ I1 N1 E)]. destruct (s_write MX B junk o1 [13%N] s1) as [[[s2 o2] n2]|] eqn:E2; [|discriminate].
    destruct (s_write_ok MX B junk HB HM o1 [13%N] s1 I1) as (s3 & n3 & E3 & I3 & _). rewrite E2 in E3. injection E3 as -> _ _. exact (IH _ _ _ _ _ _ _ I3 (s_write_nul atend _ _ _ _ _ _ I1 N1 E2) E).
Qed.
Lemma write_all_nul (atend text append : bool) strs : forall off s s' o ok, inv MX s -> (if atend then end_nul s else some_nul s) -> write_all MX B K junk text append strs off s = Some (s', o, ok) -> if atend then end_nul s' else some_nul s'.
Proof.
  induction strs as [|b strs IH]; intros off s s' o ok Hi Hn E; cbn [write_all] in E; [injection E as <- <- <-; exact Hn|]. set (p := if append then s_size s else off) in *.
  destruct (h_write_ok MX B K junk HB HM text p b s Hi) as (s1 & n & E1 & I1 & _). rewrite E1 in E.
  assert (N1 : if atend then end_nul s1 else some_nul s1) by (unfold h_write in E1; destruct text; [exact (write_text_nul atend _ _ _ _ _ _ _ _ Hi Hn E1)|exact (s_write_nul atend _ _ _ _ _ _ Hi Hn E1)]).
  destruct (n =? length b); [exact (IH _ _ _ _ _ I1 N1 E)|]. injection E as <- <- <-. exact N1.
Qed.
Definition all_streams (P : stream -> Prop) (w : world) : Prop := Forall (fun x => P (snd x)) (w_streams w).
Lemma handle_pres (P : stream -> Prop) hi w f w' r : all_streams P w -> winv MX w ->
  (forall h si name s s' h' r, inv MX s -> P s -> f h si name s = Some (s', h', r) -> P s') -> with_handle hi w f = Some (w', r) -> all_streams P w'.
Proof.
  intros Hp Hw Hf E. unfold with_handle in E. destruct (nth_error (w_handles w) hi) as [h|]; [|injection E as <- <-; exact Hp]. destruct (h_stream h) as [si|]; [|injection E as <- <-; exact Hp]. destruct (nth_error (w_streams w) si) as [[name s]|] eqn:En; [|injection E as <- <-; exact Hp].
  unfold winv in Hw. pose proof Hp as Hp'. unfold all_streams in Hp'. rewrite Forall_forall in Hw, Hp'. specialize (Hw _ (nth_error_In _ _ En)). specialize (Hp' _ (nth_error_In _ _ En)). destruct (f h si name s) as [[[s' h'] r']|] eqn:Ef; [|discriminate]. injection E as <- <-. unfold all_streams. cbn [w_streams]. apply set_nth_forall; [|exact Hp]. cbn [snd]. exact (Hf h si name s s' h' r' Hw Hp' Ef).
Qed.
Lemma open_pres (P : stream -> Prop) name mode w : P no_data -> all_streams P w -> all_streams P (fst (do_open name mode w)).
Proof.
  intros H0 Hp. unfold do_open. destruct name as [|c name]; [exact Hp|]. destruct (parse_mode mode) as [[f clear]|]; [|exact Hp]. destruct (find_stream 0 (c :: name) (w_streams w)) as [i|].
  - destruct (f_only f); [exact Hp|]. destruct clear; [|exact Hp]. unfold all_streams. cbn [fst w_streams]. destruct (nth_error (w_streams w) i) as [[n s]|]; [|exact Hp]. apply set_nth_forall; [exact H0|exact Hp].
  - destruct (f_create f); [|exact Hp]. unfold all_streams. cbn [fst w_streams]. apply Forall_app. split; [exact Hp|]. apply Forall_cons; [exact H0|apply Forall_nil].
Qed.
Lemma step_nul (atend : bool) o w w' r : winv MX w -> (atend = true -> match o with Trunc _ => False | _ => True end) ->
  all_streams (fun s => if atend then end_nul s else some_nul s) w -> step MX B K junk o w = Some (w', r) -> all_streams (fun s => if atend then end_nul s else some_nul s) w'.
Proof.
  intros Hw Ht Hp E. destruct o as [name mode|hi strs|hi fs|hi wh z|hi|hi]; cbn [step] in E.
  - injection E as E. pose proof (open_pres (fun s => if atend then end_nul s else some_nul s) name mode w) as X. rewrite E in X. apply X; [destruct atend; left; reflexivity|exact Hp].
  - refine (handle_pres _ hi w _ w' r Hp Hw _ E). intros h si name s s' h' r' Hi Hn X. destruct (f_write (h_flags h)); [|injection X as <- <- <-; exact Hn].
    destruct (write_all MX B K junk (text_mode h) (f_append (h_flags h)) strs (h_off h) s) as [[[s1 o1] ok]|] eqn:Ew; [|discriminate]. injection X as <- <- <-. exact (write_all_nul atend _ _ _ _ _ _ _ _ Hi Hn Ew).
  - refine (handle_pres _ hi w _ w' r Hp Hw _ E). intros h si name s s' h' r' Hi Hn X. destruct (f_read (h_flags h)); [|injection X as <- <- <-; exact Hn]. destruct (read_fmts MX B _ h s) as [q off]. injection X as <- <- <-. exact Hn.
  - refine (handle_pres _ hi w _ w' r Hp Hw _ E). intros h si name s s' h' r' Hi Hn X. injection X as <- <- <-. exact Hn.
  - destruct atend; [destruct (Ht eq_refl)|]. refine (handle_pres _ hi w _ w' r Hp Hw _ E). intros h si name s s' h' r' Hi Hn X. injection X as <- <- <-. destruct (f_write (h_flags h)); [|exact Hn]. unfold s_truncate. destruct (h_off h <? s_size s) eqn:El; [|exact Hn]. destruct Hn as [Hn|(p & H1 & H2)]; [lia|]. right. exists p. unfold s_cap in *. cbn [s_size s_data]. split; [lia|exact H2].
  - refine (handle_pres _ hi w _ w' r Hp Hw _ E). intros h si name s s' h' r' Hi Hn X. injection X as <- <- <-. exact Hn.
Qed.
Lemma run_nul (atend : bool) ops : forall w w' rs, winv MX w -> (atend = true -> forall h, ~ In (Trunc h) ops) ->
  all_streams (fun s => if atend then end_nul s else some_nul s) w -> run MX B K junk ops w = Some (w', rs) -> all_streams (fun s => if atend then end_nul s else some_nul s) w'.
Proof.
  induction ops as [|o ops IH]; intros w w' rs Hw Ht Hp E; cbn [run] in E; [injection E as <- <-; exact Hp|]. destruct (step_safe MX B K junk HB HM o w Hw) as (w1 & r & E1 & W1). rewrite E1 in E. destruct (run MX B K junk ops w1) as [[w2 rs2]|] eqn:E2; [|discriminate]. injection E as <- <-.
  apply (IH w1 w2 rs2 W1); [intros Ha h Hin; exact (Ht Ha h (or_intror Hin))| |exact E2]. apply (step_nul atend o w w1 r Hw); [|exact Hp|exact E1]. intro Ha. destruct o; auto. exact (Ht Ha h (or_introl eq_refl)).
Qed.
End M.

Lemma upto_nul_app a b : In 0%N a -> upto_nul (a ++ b) = upto_nul a.
Proof. induction a as [|c a IH]; intro H; [destruct H|]. cbn [app upto_nul]. destruct (c =? 0)%N eqn:E; [reflexivity|]. f_equal. apply IH. destruct H as [H|H]; [lia|exact H]. Qed.
Lemma upto_nul_z a b : upto_nul (a ++ 0%N :: b) = upto_nul a.
Proof. induction a as [|c a IH]; [reflexivity|]. cbn [app upto_nul]. destruct (c =? 0)%N; [reflexivity|]. f_equal. exact IH. Qed.
Lemma number_own s off : end_nul s -> off < s_size s -> number_text off s = upto_nul (avail off s).
Proof.
  intros [H|[H1 H2]] Ho; [lia|]. unfold number_text, avail. unfold s_cap in H1.
  assert (E : s_data s = firstn (s_size s) (s_data s) ++ 0%N :: skipn (S (s_size s)) (s_data s)).
  { rewrite <- (firstn_skipn (s_size s) (s_data s)) at 1. f_equal. destruct (skipn (s_size s) (s_data s)) as [|x t] eqn:Es; [apply (f_equal (@length N)) in Es; rewrite skipn_length in Es; cbn [length] in Es; lia|].
    assert (x = 0%N). { rewrite <- (firstn_skipn (s_size s) (s_data s)), Es, app_nth2, firstn_length, Nat.min_l, Nat.sub_diag in H2 by (try rewrite firstn_length; lia). exact H2. }
    subst x. f_equal. change (S (s_size s)) with (1 + s_size s). rewrite Nat.add_comm, <- skipn_skipn', Es. reflexivity. }
  rewrite E at 1. rewrite skipn_app, firstn_length, Nat.min_l by lia. replace (off - s_size s) with 0 by lia. cbn [skipn]. apply upto_nul_z.
Qed.
Lemma number_stops s off : some_nul s -> off < s_size s -> length (number_text off s) + off < s_cap s.
Proof.
  intros [H|(p & H1 & H2)] Ho; [lia|]. unfold number_text. unfold s_cap in *.
  assert (G : forall (l : bytes) q, q < length l -> nth q l 1%N = 0%N -> length (upto_nul l) <= q). { induction l as [|c l IH]; intros q Hq E; [cbn [length] in Hq; lia|]. cbn [upto_nul]. destruct (c =? 0)%N eqn:Ec; [cbn [length]; lia|]. destruct q as [|q]; [cbn [nth] in E; lia|]. cbn [length nth] in *. specialize (IH q ltac:(lia) E). lia. }
  specialize (G (skipn off (s_data s)) (p - off)). rewrite skipn_length in G. assert (nth (p - off) (skipn off (s_data s)) 1%N = 0%N). { rewrite <- (firstn_skipn off (s_data s)), app_nth2 in H2 by (rewrite firstn_length; lia). rewrite firstn_length, Nat.min_l in H2 by lia. exact H2. }
  specialize (G ltac:(lia) H). lia.
Qed.
