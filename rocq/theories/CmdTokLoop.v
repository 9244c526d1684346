(** cmd_loop against CmdTokSpec: where a command ends. *)
From Verif Require Import Base DoskeyModel DoskeySpec DoskeyProofs DoskeyName CmdTokModel CmdTokSpec CmdTokProofs CmdTokRem.

(** ** Text and separators, byte by byte *)

Lemma has_text_snoc u c : has_text (u ++ [c]) ->
  has_text u \/ (place_after u = Plain /\ ~ In c (lit "@ =;,(&|<>" ++ [TAB; NUL]) /\ ~ (128 <= N_of_ascii c < 192)%N /\
                 ~ behind_redirection u).
Proof.
  intros (a & x & b & E & H). destruct (snoc_cases b) as [->|(b' & y & ->)].
  - apply app_inj_tail in E as [-> ->]. right. exact H.
  - rewrite app_comm_cons, app_assoc in E. apply app_inj_tail in E as [-> _]. left. exists a, x, b'. auto.
Qed.
Lemma no_text_nil : ~ has_text [].
Proof. intros (a & x & b & E & _). destruct a; discriminate. Qed.
Lemma no_text_conts k : forall u, ~ has_text u -> conts k -> ~ has_text (u ++ k).
Proof.
  induction k as [|c k IH]; intros u N F; [rewrite app_nil_r; exact N|].
  replace (u ++ c :: k) with ((u ++ [c]) ++ k) by (rewrite <- app_assoc; reflexivity).
  apply IH; [|exact (Forall_inv_tail F)]. intros H. apply has_text_snoc in H as [H|(_ & _ & H & _)]; [auto|].
  apply H. pose proof (Forall_inv F) as C. cbn beta in C. unfold is_cont in C. cbv zeta in C.
  apply andb_true_iff in C as [C1 C2]. lia.
Qed.

Lemma one_nil m : one_command m [].
Proof. intros a c b E. destruct a; discriminate. Qed.
Lemma one_snoc m u c : one_command m u -> (c = AMP \/ c = BAR -> place_after u = Plain -> no_end m u c) -> one_command m (u ++ [c]).
Proof.
  intros O H a x b E. destruct (snoc_cases b) as [->|(b' & y & ->)].
  - apply app_inj_tail in E as [-> ->]. exact H.
  - rewrite app_comm_cons, app_assoc in E. apply app_inj_tail in E as [-> _]. apply (O a x b'). reflexivity.
Qed.
Lemma one_app m k : forall u, one_command m u -> Forall (fun c => c <> AMP /\ c <> BAR) k -> one_command m (u ++ k).
Proof.
  induction k as [|c k IH]; intros u N F; [rewrite app_nil_r; exact N|].
  replace (u ++ c :: k) with ((u ++ [c]) ++ k) by (rewrite <- app_assoc; reflexivity).
  apply IH; [|exact (Forall_inv_tail F)]. apply one_snoc; [exact N|]. pose proof (Forall_inv F) as [A B]. tauto.
Qed.
Lemma one_rem m k : forall u, one_command m u -> rem_command u -> one_command m (u ++ k).
Proof.
  induction k as [|c k IH]; intros u N R; [rewrite app_nil_r; exact N|].
  replace (u ++ c :: k) with ((u ++ [c]) ++ k) by (rewrite <- app_assoc; reflexivity).
  apply IH; [|apply rem_app; exact R]. apply one_snoc; [exact N|]. intros _ _. right. right. exact R.
Qed.
Lemma conts_no_sep k : conts k -> Forall (fun c => c <> AMP /\ c <> BAR) k.
Proof. intros F. eapply Forall_impl; [|exact F]. intros c C. split; intros ->; discriminate. Qed.
Lemma conts_no_white k : conts k -> Forall (fun c => ~ white c) k.
Proof. intros F. eapply Forall_impl; [|exact F]. intros c C. apply big_is_text. apply cont_big. exact C. Qed.

Lemma behind_of_trail u st : proper st -> trail u st -> le_dig st = false -> behind_redirection u.
Proof.
  intros P T L. destruct st; cbn [proper le_dig] in *; try contradiction; try discriminate; cbn [trail] in T.
  - destruct T as (a & c & -> & G). exists a, c, []. auto.
  - destruct T as (a & c & -> & G). exists a, c, []. auto.
  - destruct T as (a & c & -> & G). exists a, c, []. auto.
  - destruct T as (a & c & -> & G). exists a, c, []. auto.
  - destruct T as (a & d & D & ->). exists (a ++ [d]), "<"%char, []. rewrite <- app_assoc. split; [reflexivity|]. split; [apply lt_sign|auto].
  - destruct T as (a & d & D & ->). exists (a ++ [d]), ">"%char, []. rewrite <- app_assoc. split; [reflexivity|]. split; [apply gt_sign|auto].
  - destruct T as (a & d & D & ->). exists (a ++ [d; "<"%char]), "<"%char, []. rewrite <- app_assoc. split; [reflexivity|]. split; [apply lt_sign|auto].
  - destruct T as (a & d & D & ->). exists (a ++ [d; ">"%char]), ">"%char, []. rewrite <- app_assoc. split; [reflexivity|]. split; [apply gt_sign|auto].
  - destruct T as (a & c & -> & G). exists a, c, [AMP]. auto.
  - destruct T as (a & c & d & -> & G & D). exists a, c, [AMP; d]. split; [reflexivity|]. split; [exact G|]. right. right. exists d. auto.
Qed.

(** ** Numbered redirections *)

Lemma digit_input c : a_digit c -> input_type c = iDig.
Proof.
  intros D. apply a_digit_iff in D. assert (T : negb (is_digit c) || match input_type c with iDig => true | _ => false end = true) by (clear; revert c; apply by_table; vm_compute; reflexivity).
  rewrite D in T. cbn [negb orb] in T. destruct (input_type c); try discriminate. reflexivity.
Qed.
Lemma digit_white_no c : a_digit c -> ~ white c.
Proof.
  intros D W. apply white_iff in W. apply a_digit_iff in D.
  assert (T : negb (is_white c) || negb (is_digit c) = true) by (clear; revert c; apply by_table; vm_compute; reflexivity).
  rewrite D, W in T. discriminate.
Qed.

(** What the end of the text forces the state to be. *)
Definition forced (u : bytes) (st : tstate) : Prop :=
  (fresh u -> st = sSpc) /\ (forall a d, u = a ++ [d] -> fresh a -> a_digit d -> st = sDig) /\
  (numbered u -> st = sDIn \/ st = sDOut).

Lemma cont_not_digit c : is_cont c = true -> ~ white c /\ ~ a_digit c /\ ~ sign c.
Proof.
  intros C. rewrite white_iff, a_digit_iff, sign_iff.
  assert (T : negb (is_cont c) || (negb (is_white c) && negb (is_digit c) && negb (is_sign c)) = true) by (clear; revert c; apply by_table; vm_compute; reflexivity).
  rewrite C in T. cbn [negb orb] in T. apply andb_true_iff in T as [T T3]. apply andb_true_iff in T as [T1 T2]. rewrite negb_true_iff in *.
  rewrite T1, T2, T3. split; [|split]; discriminate.
Qed.
Lemma forced_conts k : forall u st, k <> [] -> conts k -> forced (u ++ k) st.
Proof.
  intros u st NK F. destruct (snoc_cases k) as [->|(k' & y & ->)]; [congruence|]. apply Forall_app in F as [_ F].
  pose proof (Forall_inv F) as C. cbn beta in C. destruct (cont_not_digit y C) as (W & D & S). rewrite app_assoc. split; [|split].
  - intros [H|(a & w & H & HW & _)]; [destruct (u ++ k'); discriminate|]. apply app_inj_tail in H as [_ ->]. contradiction.
  - intros a d H _ HD. apply app_inj_tail in H as [_ ->]. contradiction.
  - intros (a & d & s & H & _ & _ & HS). change (a ++ [d; s]) with (a ++ [d] ++ [s]) in H. rewrite app_assoc in H.
    apply app_inj_tail in H as [_ ->]. contradiction.
Qed.
Lemma forced_snoc u c st : (white c -> place_after u = Plain -> st = sSpc) -> (fresh u -> a_digit c -> st = sDig) ->
  (forall a d, u = a ++ [d] -> fresh a -> a_digit d -> sign c -> st = sDIn \/ st = sDOut) -> forced (u ++ [c]) st.
Proof.
  intros A B C. split; [|split].
  - intros [H|(a & w & H & HW & HP)]; [destruct u; discriminate|]. apply app_inj_tail in H as [-> ->]. auto.
  - intros a d H HF HD. apply app_inj_tail in H as [-> ->]. auto.
  - intros (a & d & s & H & HF & HD & HS). change (a ++ [d; s]) with (a ++ [d] ++ [s]) in H. rewrite app_assoc in H.
    apply app_inj_tail in H as [-> ->]. eauto.
Qed.
Lemma forced_text u c k : place_after u <> Plain -> ~ fresh u -> (forall a d, u = a ++ [d] -> fresh a -> ~ a_digit d) -> conts k ->
  forced (u ++ c :: k) sTxt.
Proof.
  intros P N D F. destruct k as [|y k].
  - apply forced_snoc; [contradiction|contradiction|]. intros a d H HF HD. exfalso. exact (D a d H HF HD).
  - replace (u ++ c :: y :: k) with ((u ++ [c]) ++ y :: k) by (rewrite <- app_assoc; reflexivity). apply forced_conts; [discriminate|exact F].
Qed.

(** ** One turn *)

Record inv (macro : bool) (u : bytes) (x : loop_state) : Prop := mkinv {
  i_proper : proper (l_state x);
  i_trail : trail u (l_state x);
  i_place : place_after u = if l_in_quote x then Quoted else Plain;
  i_quote : l_in_quote x = true -> l_state x = sTxt;
  i_macro : macro = true -> l_any_text x = true;
  i_text : l_any_text x = false -> ~ has_text u;
  i_nil : u = [] -> l_any_text x = macro /\ l_state x = sSpc;
  i_one : one_command macro u;
  i_scan : scanned u (l_is_arg x) (l_in_quote x) (l_state x) (l_cmd x);
  i_num : forced u (l_state x) }.

(** What is known when the loop ends with [rest] left. *)
Definition ended_at (macro : bool) (u rest : bytes) : Prop :=
  one_command macro u /\
  (rest = [] \/ exists c r, rest = c :: r /\ (c = AMP \/ c = BAR) /\ place_after u = Plain /\ ~ (c = AMP /\ numbered u) /\ (macro = false -> u <> [])).

Definition turned (macro : bool) (base u l : bytes) (t : turn) : Prop :=
  match t with
  | Stop z => exists v r, l = v ++ r /\ z = (rev (u ++ v) ++ base, r) /\ ended_at macro (u ++ v) r
  | Go z x => exists k r, l = k ++ r /\ k <> [] /\ z = (rev (u ++ k) ++ base, r) /\
                (inv macro (u ++ k) x \/ (r = [] /\ one_command macro (u ++ k)))
  end.

Lemma rev_chunk u c k (base : bytes) : rev (c :: k) ++ rev u ++ base = rev (u ++ c :: k) ++ base.
Proof. rewrite rev_app_distr, app_assoc. reflexivity. Qed.

Lemma turn_quoted macro u x base c r : inv macro u x -> l_in_quote x = true ->
  exists t, cmd_turn (rev u ++ base) c r x = Some t /\ turned macro base u (c :: r) t.
Proof.
  intros I Q. unfold cmd_turn. rewrite Q. eexists. split; [reflexivity|]. cbn [turned].
  destruct (next_char_split (rev u ++ base) c r) as (k & r' & -> & C & _ & ->).
  exists (c :: k), r'. split; [reflexivity|]. split; [discriminate|]. split; [rewrite rev_chunk; reflexivity|]. left.
  assert (PQ : place_after u = Quoted) by (rewrite (i_place _ _ _ I), Q; reflexivity).
  assert (PL : place_after (u ++ c :: k) = if negb (ceq c QUOTE) then Quoted else Plain).
  { unfold place_after. rewrite fold_step_app. fold (place_after u). rewrite PQ. cbn [fold_left step].
    change (Ascii.eqb c DQ) with (ceq c QUOTE). destruct (ceq c QUOTE); cbn [negb]; apply conts_place; auto; discriminate. }
  assert (NS : l_state x = sTxt) by (apply (i_quote _ _ _ I Q)).
  split; cbn [l_state l_in_quote l_any_text l_is_arg l_cmd]; auto.
  - rewrite NS. exact Logic.I.
  - rewrite NS. exact Logic.I.
  - apply (i_macro _ _ _ I).
  - intros A. replace (u ++ c :: k) with ((u ++ [c]) ++ k) by (rewrite <- app_assoc; reflexivity).
    apply no_text_conts; [|exact C]. intros H. apply has_text_snoc in H as [H|(H & _)]; [|congruence].
    exact (i_text _ _ _ I A H).
  - intros E. destruct u; discriminate.
  - replace (u ++ c :: k) with ((u ++ [c]) ++ k) by (rewrite <- app_assoc; reflexivity).
    apply one_app; [|apply conts_no_sep; exact C]. apply one_snoc; [apply (i_one _ _ _ I)|congruence].
  - apply scanned_quoted; auto; [|apply conts_no_white; exact C]. rewrite <- Q. apply (i_scan _ _ _ I).
  - destruct (i_num _ _ _ I) as (N1 & N2 & _). rewrite NS in *. apply forced_text; auto; [congruence| |].
    + intros H. discriminate (N1 H).
    + intros a d H1 H2 H3. discriminate (N2 a d H1 H2 H3).
Qed.

(** The bytes consumed with [c] outside of quotes. *)
Inductive eaten (c : byte) (quirk : bool) : bytes -> bytes -> Prop :=
| eat_caret_end : c = "^"%char -> eaten c quirk [] []
| eat_caret d k r : c = "^"%char -> conts k -> eaten c quirk (d :: k) r
| eat_char k r : c <> "^"%char -> conts k -> ((N_of_ascii c < 128)%N -> k = []) -> quirk = false -> eaten c quirk k r
| eat_quirk r : quirk = true -> eaten c quirk [">"%char] r.

Lemma eat done c r (q : bytes -> bool) : 
  (forall rest, q rest = true -> exists r', rest = ">"%char :: r') -> (forall rest, q rest = true -> is_digit c = true) ->
  let z := if ceq c "^" then next_char (next_char (done, c :: r)) else next_char (done, c :: r) in
  exists k r', r = k ++ r' /\ eaten c (q (snd z)) k r' /\
    (if q (snd z) then next_byte z else z) = (rev (c :: k) ++ done, r').
Proof.
  intros QG QD. destruct (ceq c "^") eqn:C; cbv zeta.
  - assert (NQ : forall rest, q rest = false).
    { intros rest. destruct (q rest) eqn:E; [|reflexivity]. apply QD in E. apply ceq_true in C. subst c. discriminate. }
    rewrite NQ. apply ceq_true in C. destruct (next_char_split done c r) as (k & r' & -> & F & A & ->).
    rewrite A by (subst c; vm_compute; reflexivity). cbn [app]. destruct r' as [|d r'].
    + exists [], []. split; [reflexivity|]. split; [apply eat_caret_end; exact C|reflexivity].
    + destruct (next_char_split (rev [c] ++ done) d r') as (k2 & r2 & -> & F2 & _ & ->).
      exists (d :: k2), r2. split; [reflexivity|]. split; [apply eat_caret; auto|].
      cbn [rev app]. rewrite <- !app_assoc. reflexivity.
  - destruct (next_char_split done c r) as (k & r' & -> & F & A & ->). cbn [snd].
    apply ceq_false in C. destruct (q r') eqn:E.
    + destruct (QG _ E) as [r2 ->]. pose proof (QD _ E) as D.
      rewrite A.
      * exists [">"%char], r2. split; [reflexivity|]. split; [apply eat_quirk; reflexivity|reflexivity].
      * clear - D. revert D. assert (T : negb (is_digit c) || (N_of_ascii c <? 128)%N = true) by (revert c; apply by_table; vm_compute; reflexivity).
        intros D. rewrite D in T. cbn [negb orb] in T. lia.
    + exists k, r'. split; [reflexivity|]. split; [apply eat_char; auto|reflexivity].
Qed.

Lemma caret_text : input_type "^" = iTxt.
Proof. reflexivity. Qed.
Lemma settled_text u any arg st c ns arg' : input_type c = iTxt -> settled u any arg st c ns arg' -> ns = sTxt.
Proof.
  intros E S. pose proof (input_facts c) as F. rewrite E in F. inversion S; subst; tauto.
Qed.
Lemma settle_txt any arg i ns arg' : settle any arg i sTxt = Some (ns, arg') -> ns = sTxt.
Proof. unfold settle. cbn [st_eq andb ends_redir]. intros H. injection H; auto. Qed.

(** The table's answer for a character of the command's text. *)
Lemma text_transition st c : le_dig st = true -> ~ In c (lit "@ =;,(&|<>" ++ [TAB; NUL]) ->
  (exists ns0, transition st (input_type c) = Some ns0 /\ (st_eq ns0 sTxt || st_eq ns0 sDig) = true) /\
  has name_delims c = false /\ ceq c "&" = false /\ ceq c "|" = false.
Proof.
  intros L N. apply inb_false in N.
  assert (T : inb c (lit "@ =;,(&|<>" ++ [TAB; NUL]) ||
              (match input_type c with iTxt | iDig => true | _ => false end && negb (has name_delims c) && negb (ceq c "&") && negb (ceq c "|")) = true).
  { clear N. revert c. apply by_table. vm_compute. reflexivity. }
  rewrite N in T. cbn [orb] in T. apply andb_true_iff in T as [T T4]. apply andb_true_iff in T as [T T3]. apply andb_true_iff in T as [T T2].
  rewrite negb_true_iff in *. split; [|auto].
  destruct st; try discriminate L; destruct (input_type c); try discriminate T; eexists; (split; [reflexivity|reflexivity]).
Qed.

Lemma turn_plain macro u x base c r : inv macro u x -> l_in_quote x = false ->
  exists t, cmd_turn (rev u ++ base) c r x = Some t /\ turned macro base u (c :: r) t.
Proof.
  intros I Q. unfold cmd_turn. rewrite Q.
  set (z := if ceq c "^" then next_char (next_char (rev u ++ base, c :: r)) else next_char (rev u ++ base, c :: r)).
  cbv zeta.
  destruct (transition (l_state x) (input_type c)) as [ns0|] eqn:TR.
  2:{ destruct (settle_ok u true true (l_state x) c (i_proper _ _ _ I) (i_trail _ _ _ I)) as (n0 & n1 & n2 & E & _). congruence. }
  set (sets := (st_eq ns0 sTxt || st_eq ns0 sDig) && negb (l_any_text x) && negb (has name_delims c) && negb (ceq c "&") && negb (ceq c "|")).
  set (any := l_any_text x || sets).
  set (q := fun rest : bytes => sets && match input_type c with iDig => true | _ => false end && st_eq ns0 sTxt &&
              match rev u ++ base with p :: _ => ceq p "@" | [] => false end &&
              match rest with g :: _ => ceq g ">" | [] => false end).
  change (sets && match input_type c with iDig => true | _ => false end && st_eq ns0 sTxt &&
              match rev u ++ base with p :: _ => ceq p "@" | [] => false end &&
              match snd z with g :: _ => ceq g ">" | [] => false end) with (q (snd z)).
  change (if ends_redir (if st_eq ns0 sBREAK && negb any then sTxt else ns0)
          then option_map (fun s => (s, true)) (transition sSpc (input_type c))
          else Some ((if st_eq ns0 sBREAK && negb any then sTxt else ns0),
                     if st_eq (if st_eq ns0 sBREAK && negb any then sTxt else ns0) sTxt then l_is_arg x else false))
    with (settle any (l_is_arg x) (input_type c) ns0).
  destruct (settle_ok u any (l_is_arg x) (l_state x) c (i_proper _ _ _ I) (i_trail _ _ _ I)) as (n0 & ns & arg' & TR' & SE & S & PT).
  rewrite TR in TR'. injection TR' as <-. rewrite SE.
  destruct (eat (rev u ++ base) c r q) as (k & r' & -> & EAT & ZE).
  { unfold q. intros rest H. apply andb_true_iff in H as [_ H]. destruct rest as [|g rest]; [discriminate|].
    apply ceq_true in H. subst g. exists rest. reflexivity. }
  { unfold q. intros rest H. apply andb_true_iff in H as [H _]. apply andb_true_iff in H as [H _]. apply andb_true_iff in H as [H _].
    apply andb_true_iff in H as [_ H]. pose proof (input_facts c) as F. destruct (input_type c); try discriminate.
    apply a_digit_iff. tauto. }
  fold z in ZE, EAT. rewrite rev_chunk in ZE. rewrite ZE. cbn [fst snd].
  assert (PP : place_after u = Plain) by (rewrite (i_place _ _ _ I), Q; reflexivity).
  pose proof (i_scan _ _ _ I) as SC. rewrite Q in SC.
  assert (ANYM : macro = true -> any = true) by (intros M; unfold any; rewrite (i_macro _ _ _ I M); reflexivity).
  (* text *)
  assert (TXT : any = false -> ~ has_text (u ++ [c])).
  { intros A H. assert (AX : l_any_text x = false /\ sets = false) by (apply orb_false_iff; exact A). destruct AX as [AX AS].
    apply has_text_snoc in H as [H|(_ & NI & _ & NB)]; [exact (i_text _ _ _ I AX H)|].
    destruct (le_dig (l_state x)) eqn:L.
    - destruct (text_transition (l_state x) c L NI) as ((n0 & E & TD) & D1 & D2 & D3). rewrite TR in E. injection E as <-.
      unfold sets in AS. rewrite TD, AX, D1, D2, D3 in AS. discriminate.
    - apply NB. apply (behind_of_trail u (l_state x)); auto; apply I. }
  (* separators *)
  assert (SEP : ns <> sBREAK -> one_command macro (u ++ [c])).
  { intros NB. apply one_snoc; [apply (i_one _ _ _ I)|]. intros AB _.
    destruct (amp_bar_plain c AB) as (W1 & W2 & W3).
    inversion S; subst; try congruence; try contradiction; try tauto.
    - left. assert (A : any = false) by (apply H2; exact AB).
      split; [destruct macro; [rewrite ANYM in A by reflexivity; discriminate|reflexivity]|].
      unfold any in A. apply orb_false_iff in A as [A _]. exact (i_text _ _ _ I A).
    - right. left. auto. }
  (* the turn *)
  pose proof (scanned_step u any (l_is_arg x) (l_state x) c ns arg' (l_cmd x)) as ST.
  destruct (if le_dig ns && negb arg' then cs_test true (l_cmd x) c ns else (false, l_cmd x)) as [hit cs'] eqn:TE.
  assert (NSB : le_dig ns = true -> ns <> sBREAK) by (intros L ->; discriminate).
  destruct hit.
  { (* rem *)
    eexists. split; [reflexivity|]. cbn [turned]. exists (c :: k ++ r'), [].
    split; [rewrite app_nil_r; reflexivity|]. split.
    { f_equal. rewrite app_assoc. f_equal. rewrite <- rev_app_distr, <- app_assoc. reflexivity. }
    assert (L : le_dig ns = true) by (destruct (le_dig ns); [reflexivity|discriminate]).
    split; [|left; reflexivity].
    replace (u ++ c :: k ++ r') with ((u ++ [c]) ++ k ++ r') by (rewrite <- app_assoc; reflexivity).
    apply one_rem; [apply SEP; auto|].
    destruct (ascii_dec c "^"%char) as [->|NC]; [left; apply in_or_app; right; left; reflexivity|].
    apply (ST [] SC (i_proper _ _ _ I) (i_trail _ _ _ I) S (NSB L) NC). left. reflexivity. }
  destruct (st_eq ns sBREAK) eqn:BR.
  { (* the end *)
    assert (ns = sBREAK) as -> by (destruct ns; discriminate || reflexivity).
    eexists. split; [reflexivity|]. cbn [turned]. exists [], (c :: k ++ r'). split; [reflexivity|].
    rewrite app_nil_r. split; [reflexivity|]. split; [apply (i_one _ _ _ I)|]. right. exists c, (k ++ r').
    split; [reflexivity|].
    assert (AB : (c = AMP \/ c = BAR) /\ (any = true \/ le_dig (l_state x) = false)).
    { inversion S as [a1 AB AN| | | | | | |n1 a1 SG LD| |]; [auto|]. exfalso. pose proof (i_proper _ _ _ I) as PR.
      destruct SG as [->| ->]; destruct (l_state x); try contradiction; cbn in TR; injection TR as <-; unfold settle in SE; cbn in SE;
        destruct any; cbn in SE; discriminate. }
    destruct AB as [AB AN]. split; [exact AB|]. split; [exact PP|]. split.
    { intros [-> NU]. destruct (i_num _ _ _ I) as (_ & _ & N3). destruct (N3 NU) as [N|N]; rewrite N in TR; cbn in TR; injection TR as <-;
        unfold settle in SE; cbn in SE; discriminate. }
    intros -> ->.
    destruct (i_nil _ _ _ I eq_refl) as [N1 N2].
    rewrite N2 in *. destruct AN as [AN|AN]; [|discriminate]. unfold any in AN. rewrite N1 in AN. cbn [orb] in AN.
    unfold sets in AN. destruct AB as [->| ->]; cbn [ceq] in AN; rewrite !andb_false_r in AN; discriminate. }
  assert (NB : ns <> sBREAK) by (intros ->; discriminate).
  destruct PT as [->|[PR TL]]; [congruence|].
  eexists. split; [reflexivity|]. cbn [turned]. exists (c :: k), r'. split; [reflexivity|]. split; [discriminate|].
  split; [reflexivity|].
  assert (SPLIT : forall l, u ++ c :: l = (u ++ [c]) ++ l) by (intros l; rewrite <- app_assoc; reflexivity).
  assert (QF : q (snd z) = true -> sets = true /\ a_digit c /\ ns0 = sTxt).
  { unfold q. intros QQ. apply andb_true_iff in QQ as [QQ _]. apply andb_true_iff in QQ as [QQ _].
    apply andb_true_iff in QQ as [QQ Q3]. apply andb_true_iff in QQ as [Q1 Q2]. split; [exact Q1|].
    split; [pose proof (input_facts c) as FC; destruct (input_type c); try discriminate; tauto|].
    destruct ns0; discriminate || reflexivity. }
  clear ZE. revert EAT QF. generalize (q (snd z)). clear z. intros qz EAT QF.
  destruct EAT as [C|d k r' C F|k r' C F A NQ|r' QK].
  - right. split; [reflexivity|]. apply SEP. exact NB.
  - left. subst c. pose proof (settled_text _ _ _ _ _ _ _ caret_text S) as ->.
    assert (P1 : place_after (u ++ ["^"%char]) = Escaped) by (rewrite place_snoc, PP; reflexivity).
    split; cbn [l_state l_in_quote l_any_text l_is_arg l_cmd]; auto.
    + rewrite SPLIT. unfold place_after. rewrite fold_step_app. fold (place_after (u ++ ["^"%char])). rewrite P1.
      cbn [fold_left step]. apply conts_place; auto. discriminate.
    + intros AF. replace (u ++ "^"%char :: d :: k) with (((u ++ ["^"%char]) ++ [d]) ++ k) by (rewrite <- !app_assoc; reflexivity).
      apply no_text_conts; [|exact F]. intros H. apply has_text_snoc in H as [H|(H & _)]; [exact (TXT AF H)|congruence].
    + intros E. destruct u; discriminate.
    + replace (u ++ "^"%char :: d :: k) with (((u ++ ["^"%char]) ++ [d]) ++ k) by (rewrite <- !app_assoc; reflexivity).
      apply one_app; [|apply conts_no_sep; exact F]. apply one_snoc; [apply SEP; exact NB|congruence].
    + apply sc_caret. apply in_or_app. right. left. reflexivity.
    + replace (u ++ "^"%char :: d :: k) with ((u ++ ["^"%char]) ++ d :: k) by (rewrite <- app_assoc; reflexivity).
      apply forced_text; auto; [congruence| |].
      * intros [H|(a & w & H & HW & _)]; [destruct u; discriminate|]. apply app_inj_tail in H as [_ <-]. apply white_iff in HW. discriminate.
      * intros a d' H _ HD. apply app_inj_tail in H as [_ <-]. apply a_digit_iff in HD. discriminate.
  - left. assert (CK : chunk c k).
    { destruct (N_of_ascii c <? 128)%N eqn:B; [left; apply A; lia|]. right. split; [left; lia|apply conts_no_white; exact F]. }
    specialize (ST k SC (i_proper _ _ _ I) (i_trail _ _ _ I) S NB C CK).
    split; cbn [l_state l_in_quote l_any_text l_is_arg l_cmd]; auto.
    + destruct (N_of_ascii c <? 128)%N eqn:B; [rewrite A by lia; exact TL|].
      destruct (big_is_text c) as (B1 & _); [lia|]. rewrite (settled_text _ _ _ _ _ _ _ B1 S). exact Logic.I.
    + rewrite SPLIT. unfold place_after. rewrite fold_step_app. fold (place_after (u ++ [c])). rewrite place_snoc, PP.
      cbn [step]. apply ceq_false in C. unfold ceq in C. rewrite C. change (Ascii.eqb c DQ) with (ceq c QUOTE).
      destruct (ceq c QUOTE); apply conts_place; auto; discriminate.
    + intros QC. apply ceq_true in QC. apply (settled_text u any (l_is_arg x) (l_state x) c ns arg'); [subst c; reflexivity|exact S].
    + intros AF. rewrite SPLIT. apply no_text_conts; auto.
    + intros E. destruct u; discriminate.
    + rewrite SPLIT. apply one_app; [apply SEP; exact NB|apply conts_no_sep; exact F].
    + destruct k as [|y k]; [|rewrite SPLIT; apply forced_conts; [discriminate|exact F]].
      destruct (i_num _ _ _ I) as (N1 & N2 & _). pose proof (input_facts c) as IF. apply forced_snoc.
      * intros W _. inversion S; subst; try contradiction; try reflexivity; exfalso.
        all: first [congruence|exact (digit_white_no c H W)|exact (sign_not_white c H W)|apply white_iff in W; discriminate].
      * intros FR D. rewrite (N1 FR), (digit_input c D) in TR. cbn in TR. injection TR as <-.
        unfold settle in SE. cbn in SE. congruence.
      * intros a d E FR D SG. rewrite (N2 a d E FR D) in TR. destruct SG as [->| ->]; cbn in TR; injection TR as <-;
          unfold settle in SE; cbn in SE; injection SE as <- _; auto.
  - left. destruct (QF QK) as (Q1 & D & ->). apply settle_txt in SE. subst ns.
    assert (AT : any = true) by (unfold any; rewrite Q1; apply orb_true_r).
    assert (C : c <> "^"%char) by (intros ->; apply a_digit_iff in D; discriminate).
    assert (CQ : ceq c QUOTE = false) by (apply ceq_false; intros ->; apply a_digit_iff in D; discriminate).
    assert (CK : chunk c [">"%char]).
    { right. split; [right; exact D|]. constructor; [|constructor]. apply sign_not_white. apply gt_sign. }
    specialize (ST _ SC (i_proper _ _ _ I) (i_trail _ _ _ I) S NB C CK).
    split; cbn [l_state l_in_quote l_any_text l_is_arg l_cmd]; auto.
    + rewrite SPLIT, place_snoc, place_snoc, PP, CQ. cbn [step]. apply ceq_false in C. unfold ceq in C. rewrite C.
      change (Ascii.eqb c DQ) with (ceq c QUOTE). rewrite CQ. reflexivity.
    + rewrite AT. discriminate.
    + intros E. destruct u; discriminate.
    + rewrite SPLIT. apply one_app; [apply SEP; exact NB|]. constructor; [|constructor]. split; discriminate.
    + rewrite SPLIT. apply forced_snoc.
      * intros W. apply white_iff in W. discriminate.
      * intros _ DD. apply a_digit_iff in DD. discriminate.
      * intros a d E FR DD _. exfalso. apply app_inj_tail in E as [-> ->]. destruct (i_num _ _ _ I) as (N1 & _).
        rewrite (N1 FR), (digit_input d DD) in TR. discriminate TR.
Qed.

(** ** The loop *)

Lemma cmd_loop_ok macro base : forall fuel u x r, length r < fuel -> inv macro u x ->
  exists v rest, r = v ++ rest /\ cmd_loop fuel (rev u ++ base, r) x = Some (rev (u ++ v) ++ base, rest) /\ ended_at macro (u ++ v) rest.
Proof.
  induction fuel as [|fuel IH]; intros u x r F I; [lia|]. cbn [cmd_loop]. destruct r as [|c r].
  - exists [], []. rewrite !app_nil_r. split; [reflexivity|]. split; [reflexivity|]. split; [apply (i_one _ _ _ I)|auto].
  - assert (T : exists t, cmd_turn (rev u ++ base) c r x = Some t /\ turned macro base u (c :: r) t).
    { destruct (l_in_quote x) eqn:Q; [apply turn_quoted|apply turn_plain]; auto. }
    destruct T as (t & -> & T). destruct t as [z x'|z]; cbn [turned] in T.
    + destruct T as (k & r' & E & NK & -> & T). destruct T as [I'|[-> O]].
      * destruct (IH (u ++ k) x' r') as (v & rest & -> & -> & EA).
        { apply (f_equal (@length _)) in E. rewrite app_length in E. cbn [length] in *. destruct k; [congruence|cbn [length] in E; lia]. }
        { exact I'. }
        exists (k ++ v), rest. split; [rewrite <- app_assoc; exact E|]. rewrite app_assoc. auto.
      * exists k, []. split; [exact E|]. split; [|split; [exact O|auto]].
        destruct fuel; [|reflexivity]. cbn [length] in F. lia.
    + destruct T as (v & r' & E & -> & EA). exists v, r'. auto.
Qed.

Lemma forced_nil : forced [] sSpc.
Proof.
  split; [auto|]. split.
  - intros a d E. destruct a; discriminate.
  - intros (a & d & s & E & _). destruct a; discriminate.
Qed.
Lemma inv_start : inv false [] (mkls false false false sSpc (cs_clear true)).
Proof.
  split; cbn [l_state l_in_quote l_any_text l_is_arg l_cmd]; auto; try exact Logic.I; try discriminate.
  - intros _. apply no_text_nil.
  - apply one_nil.
  - apply sc_none; auto; [apply no_command_nil|discriminate].
  - apply forced_nil.
Qed.
Lemma inv_macro : inv true [] (mkls true false false sSpc (cs_cancel (cs_clear true))).
Proof.
  split; cbn [l_state l_in_quote l_any_text l_is_arg l_cmd]; auto; try exact Logic.I; try discriminate.
  - apply one_nil.
  - apply sc_failed. reflexivity.
  - apply forced_nil.
Qed.
