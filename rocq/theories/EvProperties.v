(** C91, C92: expanding environment variables. *)
From Verif Require Import Base EvModel EvSpec.
Open Scope N_scope.

Lemma to_percent_app t l : ~ In 37 t -> to_percent (t ++ l) = (t ++ fst (to_percent l), snd (to_percent l)).
Proof.
  induction t as [|c t IH]; intro H; [cbn [app]; destruct (to_percent l); reflexivity|]. cbn [app to_percent]. unfold is_percent. replace (c =? 37) with false by (symmetry; apply N.eqb_neq; intros ->; apply H; left; reflexivity). rewrite IH by (intro X; apply H; right; exact X). reflexivity.
Qed.
Lemma to_percent_all t : ~ In 37 t -> to_percent t = (t, []).
Proof. intro H. rewrite <- (app_nil_r t) at 1. rewrite to_percent_app by exact H. cbn. rewrite app_nil_r. reflexivity. Qed.
Lemma to_percent_stop n l : ~ In 37 n -> to_percent (n ++ 37 :: l) = (n, 37 :: l).
Proof. intro H. rewrite to_percent_app by exact H. cbn. rewrite app_nil_r. reflexivity. Qed.
Lemma to_percent_split l : exists a b, to_percent l = (a, b) /\ l = a ++ b /\ ~ In 37 a /\ (b = [] \/ exists b', b = 37 :: b').
Proof.
  induction l as [|c l (a & b & E & -> & H & B)]; [exists [], []; cbn; auto|]. cbn [to_percent]. unfold is_percent. destruct (c =? 37) eqn:Ec.
  - exists [], (c :: a ++ b). split; [reflexivity|]. split; [reflexivity|]. split; [intros []|]. right. exists (a ++ b). f_equal. lia.
  - rewrite E. exists (c :: a), b. split; [reflexivity|]. split; [reflexivity|]. split; [|exact B]. intros [->|X]; [discriminate Ec|exact (H X)].
Qed.
Lemma good_nil : good [].
Proof. exact Logic.I. Qed.

Section Env.
Variable env : bytes -> option bytes.
Lemma loop_text f t l pos s : ~ In 37 t -> loop env (S f) (t ++ l) pos s = loop env (S f) l (pos + length t) (mkS (s_out s ++ t) (s_expanded s) (s_point s)).
Proof.
  intro H. cbn [loop]. rewrite to_percent_app by exact H. destruct (to_percent l) as [a b]. cbn [fst snd s_out s_expanded s_point]. rewrite app_length, <- app_assoc, Nat.add_assoc. reflexivity.
Qed.
Fixpoint points (ps : list piece) (pos : nat) (p : Z) : Z :=
  match ps with
  | [] => p
  | x :: ps' => points ps' (pos + length (written x)) (if is_variable env x then move_point p pos (pos + length (written x)) (becomes env x) else p)
  end.
Lemma loop_pieces ps : forall f pos s, good ps -> (length (all_written ps) < f)%nat ->
  loop env f (all_written ps) pos s = Some (mkS (s_out s ++ all_become env ps) (s_expanded s || (0 <? variables env ps)%nat) (points ps pos (s_point s))).
Proof.
  induction ps as [|x ps IH]; intros f pos s Hg Hf; (destruct f as [|f]; [lia|]).
  - cbn. rewrite !app_nil_r, orb_false_r. reflexivity.
  - change (all_written (x :: ps)) with (written x ++ all_written ps) in *. change (all_become env (x :: ps)) with (becomes env x ++ all_become env ps). rewrite app_length in Hf. destruct x as [t|n|]; cbn [good] in Hg.
    + destruct Hg as [H1 H2]. cbn [written] in *. rewrite loop_text by exact H1. rewrite IH by (assumption || lia). cbn [s_out s_expanded s_point points is_variable written becomes]. rewrite <- app_assoc. reflexivity.
    + destruct Hg as (H1 & H2 & H3). cbn [written] in *. rewrite !app_length in Hf. cbn [length] in Hf. rewrite <- !app_assoc. cbn [app loop to_percent is_percent]. replace (is_percent 37) with true by reflexivity. cbn iota. rewrite to_percent_stop by exact H2. destruct n as [|c n]; [congruence|]. set (v := c :: n) in *. cbn [length s_out s_expanded s_point]. rewrite app_nil_r, Nat.add_0_r.
      assert (L : length (37 :: v ++ [37]) = (2 + length v)%nat) by (cbn [length]; rewrite app_length; cbn; lia).
      unfold variables. cbn [points filter is_variable becomes written]. change ([37] ++ v ++ [37]) with (37 :: v ++ [37]). rewrite L, !Nat.add_assoc. destruct (env v) as [value|]; rewrite IH by (assumption || lia); cbn [s_out s_expanded s_point length]; rewrite <- app_assoc.
      * rewrite orb_true_r. reflexivity.
      * reflexivity.
    + destruct Hg as [H1 H2]. cbn [written length] in *. cbn [app loop to_percent]. replace (is_percent 37) with true by reflexivity. cbn iota. cbn [length s_out s_expanded s_point]. rewrite app_nil_r, Nat.add_0_r. cbn [points is_variable written becomes length]. unfold variables. cbn [filter is_variable].
      destruct H1 as [(l & H1)|H1].
      * rewrite H1. cbn [to_percent]. replace (is_percent 37) with true by reflexivity. cbn iota. rewrite <- H1. rewrite IH by (assumption || lia). cbn [s_out s_expanded s_point length]. rewrite <- app_assoc, Nat.add_0_r. reflexivity.
      * rewrite to_percent_all by exact H1. specialize (IH f (pos + 1)%nat (mkS (s_out s ++ [37]) (s_expanded s) (s_point s)) H2 ltac:(lia)). destruct f as [|f]; [lia|]. cbn [loop] in IH |- *. rewrite to_percent_all in IH by exact H1. cbn [to_percent s_out s_expanded s_point] in *. rewrite app_nil_r. rewrite <- app_assoc in IH. cbn [app] in IH. rewrite IH. rewrite <- !app_assoc. reflexivity.
Qed.
Lemma points_none ps : forall pos p, variables env ps = O -> points ps pos p = p.
Proof. induction ps as [|x ps IH]; intros pos p H; [reflexivity|]. unfold variables in H. cbn [points filter] in *. destruct (is_variable env x); [discriminate H|]. apply IH. exact H. Qed.
Lemma points_before ps : forall pos p, (p <= Z.of_nat (pos + first_variable env ps))%Z -> points ps pos p = p.
Proof.
  induction ps as [|x ps IH]; intros pos p H; [reflexivity|]. cbn [points first_variable] in *. destruct (is_variable env x).
  - unfold move_point. replace (Z.of_nat pos <? p)%Z with false by lia. assert (A : forall ps q, (p <= Z.of_nat q)%Z -> points ps q p = p). { clear. induction ps as [|y ps IH]; intros q H; [reflexivity|]. cbn [points]. destruct (is_variable env y); [unfold move_point; replace (Z.of_nat q <? p)%Z with false by lia|]; apply IH; lia. } apply A. lia.
  - apply IH. lia.
Qed.
Lemma cursor_before ps : forall c, (c <= first_variable env ps)%nat -> cursor env ps c = c.
Proof.
  induction ps as [|x ps IH]; intros c H; [reflexivity|]. cbn [cursor first_variable] in *. unfold inside. destruct (is_variable env x) eqn:E; [replace c with O by lia; reflexivity|]. assert (B : becomes env x = written x) by (destruct x as [t|n|]; [reflexivity| |reflexivity]; cbn in *; destruct (env n); [discriminate E|reflexivity]). rewrite B. destruct (c <=? length (written x))%nat eqn:El; [reflexivity|]. rewrite IH by lia. lia.
Qed.
Lemma cursor_none ps : forall c, variables env ps = O -> cursor env ps c = c.
Proof.
  induction ps as [|x ps IH]; intros c H; [reflexivity|]. unfold variables in H. cbn [cursor filter] in *. unfold inside. destruct (is_variable env x) eqn:E; [discriminate H|]. assert (B : becomes env x = written x) by (destruct x as [t|n|]; [reflexivity| |reflexivity]; cbn in *; destruct (env n); [discriminate E|reflexivity]). rewrite B. destruct (c <=? length (written x))%nat eqn:El; [reflexivity|]. rewrite IH by exact H. lia.
Qed.
Lemma points_one ps : forall pos c, (variables env ps <= 1)%nat -> points ps pos (Z.of_nat (pos + c)) = Z.of_nat (pos + cursor env ps c).
Proof.
  induction ps as [|x ps IH]; intros pos c H; [reflexivity|]. unfold variables in H. cbn [points cursor filter] in *. unfold inside. destruct (is_variable env x) eqn:E.
  - cbn [length] in H. rewrite points_none by (unfold variables; lia). unfold move_point. destruct c as [|c]; [cbn; replace (Z.of_nat pos <? Z.of_nat (pos + 0))%Z with false by lia; lia|]. replace (Z.of_nat pos <? Z.of_nat (pos + S c))%Z with true by lia. destruct (S c <=? length (written x))%nat eqn:El; [replace (Z.of_nat (pos + S c) <=? Z.of_nat (pos + length (written x)))%Z with true by lia; lia|]. replace (Z.of_nat (pos + S c) <=? Z.of_nat (pos + length (written x)))%Z with false by lia. rewrite cursor_none by (unfold variables; lia). lia.
  - assert (B : becomes env x = written x) by (destruct x as [t|n|]; [reflexivity| |reflexivity]; cbn in *; destruct (env n); [discriminate E|reflexivity]). rewrite B. destruct (c <=? length (written x))%nat eqn:El.
    + apply Nat.leb_le in El. clear IH H E. assert (A : forall ps q p, (p <= Z.of_nat q)%Z -> points ps q p = p). { clear. induction ps as [|y ps IH]; intros q p H; [reflexivity|]. cbn [points]. destruct (is_variable env y); [unfold move_point; replace (Z.of_nat q <? p)%Z with false by lia|]; apply IH; lia. } apply A. lia.
    + replace (pos + c)%nat with (pos + length (written x) + (c - length (written x)))%nat by lia. rewrite IH by exact H. lia.
Qed.
End Env.

(** C91: every text is made of such pieces; *)
Theorem env_pieces_exist : forall l, exists ps, good ps /\ all_written ps = l.
Proof.
  intro l. remember (length l) as k eqn:Ek. assert (Hk : (length l <= k)%nat) by lia. clear Ek. revert l Hk. induction k as [|k IH]; intros l Hk; [destruct l; [exists []; split; [exact good_nil|reflexivity]|cbn in Hk; lia]|].
  destruct (to_percent_split l) as (a & b & _ & -> & Ha & [->|(b' & ->)]); [exists [Text a]; split; [split; [exact Ha|exact good_nil]|unfold all_written; cbn; rewrite !app_nil_r; reflexivity]|]. rewrite app_length in Hk. cbn [length] in Hk.
  destruct (to_percent_split b') as (n & r & _ & -> & Hn & Hr).
  assert (C : exists ps, good ps /\ all_written ps = 37 :: n ++ r).
  { destruct Hr as [->|(r' & ->)].
    - exists [Percent; Text n]. split; [|unfold all_written; cbn; rewrite !app_nil_r; reflexivity]. cbn [good]. split; [right; unfold all_written; cbn; rewrite app_nil_r; exact Hn|]. split; [exact Hn|exact Logic.I].
    - rewrite app_length in Hk. cbn [length] in Hk. destruct n as [|c n].
      + destruct (IH (37 :: r')) as (ps & G & W); [cbn; cbn in Hk; lia|]. exists (Percent :: ps). split; [|unfold all_written in *; cbn [map concat written]; rewrite W; reflexivity]. cbn [good]. split; [left; exists r'; exact W|exact G].
      + destruct (IH r') as (ps & G & W); [cbn in Hk; lia|]. exists (Name (c :: n) :: ps). split; [cbn [good]; split; [discriminate|split; [exact Hn|exact G]]|]. unfold all_written in *. cbn [map concat written]. rewrite W. cbn [app]. rewrite <- app_assoc. reflexivity. }
  destruct C as (ps & G & W). exists (Text a :: ps). split; [split; assumption|]. unfold all_written in *. cbn [map concat written]. rewrite W. reflexivity.
Qed.
(** names of variables become their values, and nothing else changes; the flag says whether there are any *)
Theorem env_expanded : forall env ps point, good ps ->
  exists s, expand_env env (all_written ps) point = Some s /\ s_out s = all_become env ps /\ s_expanded s = (0 <? variables env ps)%nat.
Proof. intros env ps point Hg. unfold expand_env. rewrite loop_pieces by (exact Hg || lia). eexists. split; [reflexivity|]. split; reflexivity. Qed.
(** so it does not matter into which pieces it is taken apart *)
Theorem env_one_meaning : forall env ps ps', good ps -> good ps' -> all_written ps = all_written ps' -> all_become env ps = all_become env ps'.
Proof. intros env ps ps' Hg Hg' E. destruct (env_expanded env ps 0%Z Hg) as (s & A & B & _). destruct (env_expanded env ps' 0%Z Hg') as (s' & A' & B' & _). rewrite E in A. congruence. Qed.
(** expanding ends, whatever the text *)
Theorem env_expansion_ends : forall env l point, expand_env env l point <> None.
Proof. intros env l point. destruct (env_pieces_exist l) as (ps & G & <-). destruct (env_expanded env ps point G) as (s & -> & _). discriminate. Qed.

(** C92: the cursor stays where it was in the text, if there is not more than one variable or if it is not after the beginning of the first.  Partial: see the refutation *)
Theorem env_cursor_partial : forall env ps c s, good ps -> (variables env ps <= 1)%nat \/ (c <= first_variable env ps)%nat ->
  expand_env env (all_written ps) (Z.of_nat c) = Some s -> s_point s = Z.of_nat (cursor env ps c).
Proof.
  intros env ps c s Hg Hv. unfold expand_env. rewrite loop_pieces by (exact Hg || lia). intro E. injection E as <-. cbn [s_point]. destruct Hv as [Hv|Hv]; [exact (points_one env ps O c Hv)|]. rewrite points_before by lia. rewrite cursor_before by exact Hv. reflexivity.
Qed.
(** with two, it may end up anywhere, even after the end of the line *)
Definition two_vars (n : bytes) : option bytes := match n with [65] => Some [49] | [66] => Some [50] | _ => None end.
Theorem env_cursor_refuted : ~ (forall env ps c s, good ps -> (c <= length (all_written ps))%nat -> expand_env env (all_written ps) (Z.of_nat c) = Some s -> s_point s = Z.of_nat (cursor env ps c)).
Proof.
  intro H. specialize (H two_vars [Name [65]; Name [66]; Text [120]] 7%nat). assert (G : good [Name [65]; Name [66]; Text [120]]). { cbn. repeat split; try discriminate; intros [X|[]]; discriminate X. } cbv beta in H. specialize (H _ G ltac:(cbn; lia) eq_refl). vm_compute in H. discriminate H.
Qed.
Theorem env_cursor_outside_refuted : exists env ps c s, good ps /\ (c <= length (all_written ps))%nat /\ expand_env env (all_written ps) (Z.of_nat c) = Some s /\ (Z.of_nat (length (s_out s)) < s_point s)%Z.
Proof.
  exists two_vars, [Name [65]; Name [66]], 6%nat, (mkS [49; 50] true 4%Z). split; [cbn; repeat split; try discriminate; intros [X|[]]; discriminate X|]. split; [cbn; lia|]. split; [vm_compute; reflexivity|]. cbn. lia.
Qed.

(** ** Examples: a%A%%%B%%c%d% *)
Definition ex_pieces : list piece := [Text [97]; Name [65]; Percent; Name [66]; Name [99]; Text [100]; Percent].
Example ex_good : good ex_pieces.
Proof. unfold ex_pieces. cbn. repeat split; try discriminate; try (intros [X|[]]; discriminate X); [left; eexists; reflexivity|right; intros []]. Qed.
Example ex_expanded : exists s, expand_env two_vars (all_written ex_pieces) 0%Z = Some s /\ s_out s = [97; 49; 37; 50; 37; 99; 37; 100; 37] /\ s_expanded s = true.
Proof. eexists. split; [vm_compute; reflexivity|]. split; reflexivity. Qed.
Example ex_cursor : variables two_vars [Text [97]; Name [65]; Text [98]] = 1%nat /\ cursor two_vars [Text [97]; Name [65]; Text [98]] 3 = 2%nat /\ cursor two_vars [Text [97]; Name [65]; Text [98]] 5 = 3%nat /\ first_variable two_vars ex_pieces = 1%nat.
Proof. repeat split. Qed.
Print Assumptions env_pieces_exist.
Print Assumptions env_expanded.
Print Assumptions env_one_meaning.
Print Assumptions env_expansion_ends.
Print Assumptions env_cursor_partial.
Print Assumptions env_cursor_refuted.
Print Assumptions env_cursor_outside_refuted.
