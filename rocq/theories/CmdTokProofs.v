(** The scan of one command (CmdTokModel.cmd_loop) against CmdTokSpec. *)
From Verif Require Import Base DoskeyModel DoskeySpec DoskeyProofs DoskeyName CmdTokModel CmdTokSpec.

Lemma fold_step_app p a b : fold_left step (a ++ b) p = fold_left step b (fold_left step a p).
Proof. apply fold_left_app. Qed.
Lemma place_snoc u c : place_after (u ++ [c]) = step (place_after u) c.
Proof. unfold place_after. rewrite fold_step_app. reflexivity. Qed.

(** ** Characters *)

Definition conts (k : bytes) : Prop := Forall (fun c => is_cont c = true) k.

Lemma skip_cont_split r : forall done, exists k r', r = k ++ r' /\ conts k /\ skip_cont done r = (rev k ++ done, r').
Proof.
  induction r as [|c r IH]; intros done; cbn [skip_cont].
  - exists [], []. split; [reflexivity|]. split; [constructor|reflexivity].
  - destruct (is_cont c) eqn:E.
    + destruct (IH (c :: done)) as (k & r' & -> & F & ->). exists (c :: k), r'. split; [reflexivity|].
      split; [constructor; auto|]. cbn [rev]. rewrite <- app_assoc. reflexivity.
    + exists [], (c :: r). split; [reflexivity|]. split; [constructor|reflexivity].
Qed.

(** The rest of a character: nothing behind an ASCII byte. *)
Lemma next_char_split done c r : exists k r', r = k ++ r' /\ conts k /\ ((N_of_ascii c < 128)%N -> k = []) /\
  next_char (done, c :: r) = (rev (c :: k) ++ done, r').
Proof.
  unfold next_char. destruct (N_of_ascii c <? 128)%N eqn:E.
  - exists [], r. split; [reflexivity|]. split; [constructor|]. split; [reflexivity|reflexivity].
  - destruct (skip_cont_split r (c :: done)) as (k & r' & -> & F & ->). exists k, r'. split; [reflexivity|].
    split; [exact F|]. split; [lia|]. cbn [rev]. rewrite <- app_assoc. reflexivity.
Qed.

Definition is_white (c : byte) : bool := inb c [SPC; TAB; NUL].
Definition is_sign (c : byte) : bool := ceq c "<" || ceq c ">".

Lemma white_iff c : white c <-> is_white c = true.
Proof. symmetry. apply inb_iff. Qed.
Lemma sign_iff c : sign c <-> is_sign c = true.
Proof. unfold sign, is_sign. rewrite orb_true_iff, !ceq_true. reflexivity. Qed.
Lemma a_digit_iff c : a_digit c <-> is_digit c = true.
Proof.
  unfold a_digit. rewrite <- inb_iff. assert (H : Bool.eqb (inb c (lit "0123456789")) (is_digit c) = true).
  { revert c. apply by_table. vm_compute. reflexivity. }
  apply Bool.eqb_prop in H. rewrite H. reflexivity.
Qed.

(** What the kind of a character tells. *)
Lemma input_facts c :
  match input_type c with
  | iSpc => white c
  | iDig => a_digit c /\ ~ white c
  | iIn => c = "<"%char
  | iOut => c = ">"%char
  | iAmp => c = AMP
  | iPipe => c = BAR
  | iTxt => ~ white c /\ ~ a_digit c /\ ~ sign c /\ c <> AMP /\ c <> BAR
  end.
Proof.
  assert (H : match input_type c with
    | iSpc => is_white c
    | iDig => is_digit c && negb (is_white c)
    | iIn => ceq c "<" | iOut => ceq c ">" | iAmp => ceq c "&" | iPipe => ceq c "|"
    | iTxt => negb (is_white c) && negb (is_digit c) && negb (is_sign c) && negb (ceq c "&") && negb (ceq c "|")
    end = true).
  { revert c. apply by_table. vm_compute. reflexivity. }
  destruct (input_type c).
  - apply andb_true_iff in H as [H H5]. apply andb_true_iff in H as [H H4]. apply andb_true_iff in H as [H H3].
    apply andb_true_iff in H as [H1 H2]. rewrite negb_true_iff in *. rewrite white_iff, a_digit_iff, sign_iff.
    split; [congruence|]. split; [congruence|]. split; [congruence|]. split; apply ceq_false; auto.
  - apply white_iff; exact H.
  - apply andb_true_iff in H as [H1 H2]. rewrite negb_true_iff in *. rewrite white_iff, a_digit_iff. split; congruence.
  - apply ceq_true; auto.
  - apply ceq_true; auto.
  - apply ceq_true; auto.
  - apply ceq_true; auto.
Qed.

Lemma big_is_text c : (128 <= N_of_ascii c)%N -> input_type c = iTxt /\ c <> DQ /\ c <> "^"%char /\ ~ white c.
Proof.
  intros H. assert (T : (N_of_ascii c <? 128)%N || (match input_type c with iTxt => true | _ => false end &&
      negb (ceq c DQ) && negb (ceq c "^") && negb (is_white c)) = true).
  { revert c H. intros c _. revert c. apply by_table. vm_compute. reflexivity. }
  destruct (N_of_ascii c <? 128)%N eqn:E; [lia|]. cbn [orb] in T.
  apply andb_true_iff in T as [T T4]. apply andb_true_iff in T as [T T3]. apply andb_true_iff in T as [T T2].
  rewrite negb_true_iff in *. split; [destruct (input_type c); congruence|].
  split; [apply ceq_false; auto|]. split; [apply ceq_false; auto|]. rewrite white_iff. congruence.
Qed.
Lemma cont_big c : is_cont c = true -> (128 <= N_of_ascii c)%N.
Proof. unfold is_cont. cbv zeta. intros H. apply andb_true_iff in H as [H _]. lia. Qed.

(** The bytes of a character do not change the place. *)
Lemma conts_place k : conts k -> forall p, p <> Escaped -> fold_left step k p = p.
Proof.
  induction k as [|c k IH]; intros F p N; [reflexivity|]. cbn [fold_left].
  assert (E : step p c = p).
  { pose proof (big_is_text c (cont_big _ (Forall_inv F))) as (_ & D & C & _).
    apply ceq_false in D, C. unfold ceq in *. destruct p; cbn [step]; [|rewrite D; reflexivity|congruence].
    rewrite D, C. reflexivity. }
  rewrite E. apply IH; [exact (Forall_inv_tail F)|exact N].
Qed.

(** ** The states *)

Definition proper (s : tstate) : Prop := match s with sBREAK | sARG | sVALID | sBAD => False | _ => True end.

(** What the end of the text tells about the state. *)
Definition trail (u : bytes) (s : tstate) : Prop :=
  match s with
  | sIn | sOut | sIn2 | sOut2 => exists a c, u = a ++ [c] /\ sign c
  | sDIn => exists a d, a_digit d /\ u = a ++ [d; "<"%char]
  | sDOut => exists a d, a_digit d /\ u = a ++ [d; ">"%char]
  | sDIn2 => exists a d, a_digit d /\ u = a ++ [d; "<"%char; "<"%char]
  | sDOut2 => exists a d, a_digit d /\ u = a ++ [d; ">"%char; ">"%char]
  | sReAm => exists a c, u = a ++ [c; AMP] /\ sign c
  | sAmDi => exists a c d, u = a ++ [c; AMP; d] /\ sign c /\ a_digit d
  | sDig => exists a d, u = a ++ [d] /\ a_digit d
  | _ => True
  end.

(** The next state and is_arg, as computed by lines 444-456 from the table's answer. *)
Definition settle (any : bool) (arg : bool) (i : input) (ns0 : tstate) : option (tstate * bool) :=
  let ns1 := if st_eq ns0 sBREAK && negb any then sTxt else ns0 in
  if ends_redir ns1 then option_map (fun s => (s, true)) (transition sSpc i)
  else Some (ns1, if st_eq ns1 sTxt then arg else false).

Inductive settled (u : bytes) (any arg : bool) (st : tstate) (c : byte) : tstate -> bool -> Prop :=
| set_break arg' : (c = AMP \/ c = BAR) -> (any = true \/ le_dig st = false) -> settled u any arg st c sBREAK arg'
| set_text : ~ white c -> ~ sign c -> le_dig st = true -> (c = AMP \/ c = BAR -> any = false) -> settled u any arg st c sTxt arg
| set_arg : ~ white c -> ~ sign c -> c <> AMP -> c <> BAR -> le_dig st = false -> settled u any arg st c sTxt true
| set_blank : white c -> le_dig st = true -> settled u any arg st c sSpc false
| set_arg_blank : white c -> le_dig st = false -> settled u any arg st c sSpc true
| set_digit : a_digit c -> st = sSpc -> settled u any arg st c sDig false
| set_arg_digit : a_digit c -> le_dig st = false -> settled u any arg st c sDig true
| set_sign ns arg' : sign c -> le_dig ns = false -> settled u any arg st c ns arg'
| set_amp : c = AMP -> behind_numbered_sign u -> le_dig st = false -> settled u any arg st c sReAm false
| set_amp_digit : a_digit c -> st = sReAm -> settled u any arg st c sAmDi false.


Lemma sign_not_white c : sign c -> ~ white c.
Proof. intros [->| ->]; rewrite white_iff; vm_compute; discriminate. Qed.
Lemma amp_bar_plain c : c = AMP \/ c = BAR -> ~ white c /\ ~ sign c /\ ~ a_digit c.
Proof. intros [->| ->]; rewrite white_iff, sign_iff, a_digit_iff; vm_compute; (split; [|split]); discriminate. Qed.
Lemma lt_sign : sign "<". Proof. left; reflexivity. Qed.
Lemma gt_sign : sign ">". Proof. right; reflexivity. Qed.
Lemma digit_not_sign c : a_digit c -> ~ sign c.
Proof. rewrite a_digit_iff. intros H [->| ->]; discriminate. Qed.
Lemma digit_not_amp c : a_digit c -> c <> AMP /\ c <> BAR.
Proof. rewrite a_digit_iff. intros H. split; intros ->; discriminate. Qed.

Lemma numbered_in u : trail u sDIn -> behind_numbered_sign u.
Proof. intros (a & d & D & ->). exists a, d, "<"%char. split; [auto|]. split; [apply lt_sign|auto]. Qed.
Lemma numbered_out u : trail u sDOut -> behind_numbered_sign u.
Proof. intros (a & d & D & ->). exists a, d, ">"%char. split; [auto|]. split; [apply gt_sign|auto]. Qed.
Lemma numbered_in2 u : trail u sDIn2 -> behind_numbered_sign u.
Proof. intros (a & d & D & ->). exists a, d, "<"%char. split; [auto|]. split; [apply lt_sign|auto]. Qed.
Lemma numbered_out2 u : trail u sDOut2 -> behind_numbered_sign u.
Proof. intros (a & d & D & ->). exists a, d, ">"%char. split; [auto|]. split; [apply gt_sign|auto]. Qed.

Ltac set_case F T :=
  first
  [ apply set_break; [subst; solve [left; reflexivity|right; reflexivity]|first [left; reflexivity|right; reflexivity]]
  | apply set_text; [tauto|solve [tauto|apply digit_not_sign; tauto]|reflexivity|
                     intros _; first [reflexivity|destruct (digit_not_amp _ (proj1 F)); tauto|tauto]]
  | apply set_text; [apply amp_bar_plain; auto|apply amp_bar_plain; auto|reflexivity|reflexivity]
  | apply set_text; [tauto|apply digit_not_sign; tauto|reflexivity|
                     let K := fresh in intros K; destruct (digit_not_amp _ (proj1 F)); tauto]
  | apply set_text; [tauto|tauto|reflexivity|let K := fresh in intros K; tauto]
  | apply set_arg; [tauto|tauto|tauto|tauto|reflexivity]
  | apply set_blank; [exact F|reflexivity]
  | apply set_arg_blank; [exact F|reflexivity]
  | apply set_digit; [tauto|reflexivity]
  | apply set_arg_digit; [tauto|reflexivity]
  | apply set_sign; [subst; first [apply lt_sign|apply gt_sign]|reflexivity]
  | apply set_amp; [exact F|solve [apply (numbered_in _ T)|apply (numbered_out _ T)|apply (numbered_in2 _ T)|apply (numbered_out2 _ T)]|reflexivity]
  | apply set_amp_digit; [tauto|reflexivity] ].

Ltac trail_case F T :=
  cbn [trail] in *;
  first
  [ exact I
  | solve [subst; eexists _, _; split; [reflexivity|first [apply lt_sign|apply gt_sign]]]
  | solve [eexists _, _; split; [reflexivity|tauto]]
  | solve [destruct T as (?a & ?d & -> & ?D); rewrite <- app_assoc; subst; eexists _, _; split; [eassumption|reflexivity]]
  | solve [destruct T as (?a & ?d & ?D & ->); rewrite <- app_assoc; subst; eexists _, _; split; [eassumption|reflexivity]]
  | solve [destruct T as (?a & ?d & ?D & ->); subst; rewrite <- app_assoc; cbn [app];
           match goal with |- context [?a ++ [?d; ?s; AMP]] => exists (a ++ [d]), s end;
           rewrite <- app_assoc; split; [reflexivity|first [apply lt_sign|apply gt_sign]]]
  | solve [destruct T as (?a & ?d & ?D & ->); subst; rewrite <- app_assoc; cbn [app];
           match goal with |- context [?a ++ [?d; ?s; ?s; AMP]] => exists (a ++ [d; s]), s end;
           rewrite <- app_assoc; split; [reflexivity|first [apply lt_sign|apply gt_sign]]]
  | solve [destruct T as (?a & ?s & -> & ?D); rewrite <- app_assoc; eexists _, _, _; split; [reflexivity|tauto]] ].

Lemma settle_ok u any arg st c : proper st -> trail u st ->
  exists ns0 ns arg', transition st (input_type c) = Some ns0 /\
    settle any arg (input_type c) ns0 = Some (ns, arg') /\ settled u any arg st c ns arg' /\
    (ns = sBREAK \/ (proper ns /\ trail (u ++ [c]) ns)).
Proof.
  intros P T. pose proof (input_facts c) as F.
  destruct st; cbn [proper] in P; try contradiction; destruct (input_type c) eqn:E; cbn iota in F;
    destruct any; eexists _, _, _; (split; [reflexivity|]); unfold settle; cbn [st_eq negb andb ends_redir];
    (split; [reflexivity|]);
    (split; [set_case F T|first [left; reflexivity|right; split; [exact I|trail_case F T]]]).
Qed.
