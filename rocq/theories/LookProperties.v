(** C49: packed matches and their tables. *)
From Verif Require Import Base LookModel.

(** ** What is expected *)
(** Line breaks and tabs are shown as blanks. *)
Definition shown (t : bytes) : bytes := map (fun c => if in_dec ascii_dec c [CR; LF; TAB] then SPC else c) t.
Definition texts_ok (r : record) : Prop :=
  (r_type r < 65536)%N /\ r_match r <> Some [] /\ r_display r <> Some [] /\
  ~ In NUL (text_or_empty (r_match r)) /\ ~ In NUL (text_or_empty (r_display r)) /\ ~ In NUL (text_or_empty (r_desc r)).
(** The texts before the description have less than 64 kilobytes. *)
Definition short (magic : bytes) (r : record) : Prop :=
  (N.of_nat (length (text_or_empty (r_match r)) + length magic + length (text_or_empty (r_display r))) < 65536 - 6)%N.
Definition expected (r : record) : details :=
  mkd (r_type r) (Some (shown (text_or_empty (r_display r)))) (Some (shown (text_or_empty (r_desc r)))) (r_append r) (r_flags r).

Lemma shown_clean t : map clean t = shown t.
Proof.
  apply map_ext. intro c. unfold clean. destruct (in_dec ascii_dec c [CR; LF; TAB]) as [[<-|[<-|[<-|[]]]]|N]; try reflexivity.
  destruct (Ascii.eqb_spec c CR); [exfalso; apply N; subst; cbn; tauto|]. destruct (Ascii.eqb_spec c LF); [exfalso; apply N; subst; cbn; tauto|].
  destruct (Ascii.eqb_spec c TAB); [exfalso; apply N; subst; cbn; tauto|]. reflexivity.
Qed.
Lemma clean_nul c : c <> NUL -> clean c <> NUL.
Proof. unfold clean. destruct (_ || _); [discriminate|auto]. Qed.
Lemma cstr_app t r : ~ In NUL t -> cstr (t ++ NUL :: r) = Some t.
Proof.
  induction t as [|c t IH]; intro N; cbn [app cstr].
  - rewrite Ascii.eqb_refl. reflexivity.
  - destruct (Ascii.eqb_spec c NUL) as [->|_]; [exfalso; apply N; left; reflexivity|]. rewrite IH; [reflexivity|]. intro X. apply N. right. exact X.
Qed.
Lemma clean_no_nul t : ~ In NUL t -> ~ In NUL (map clean t).
Proof. intros N H. apply in_map_iff in H as (c & E & I). revert E. apply clean_nul. intros ->. auto. Qed.

Section P.
Variable magic : bytes.

Lemma pack_form r : texts_ok r -> pack_match magic r =
  Some (map clean (text_or_empty (r_match r)) ++ NUL :: [lo_byte (r_type r); hi_byte (r_type r); r_append r; r_flags r] ++ magic ++
        map clean (text_or_empty (r_display r)) ++ NUL :: map clean (text_or_empty (r_desc r)) ++ [NUL]).
Proof.
  intros (_ & A & B & _). unfold pack_match, append_string.
  destruct (r_match r) as [[|c m]|]; [congruence| |]; (destruct (r_display r) as [[|d ds]|]; [congruence| |]);
    cbn [text_or_empty]; rewrite <- ?app_assoc; cbn [app map]; rewrite <- ?app_assoc; reflexivity.
Qed.

(** The block has exactly the size calculated for it. *)
Theorem packed_size r b : pack_match magic r = Some b -> length b = calc_packed_size magic r.
Proof.
  unfold pack_match, calc_packed_size. intro H.
  assert (E : Some (append_string (r_match r) ++ [lo_byte (r_type r); hi_byte (r_type r); r_append r; r_flags r] ++ magic ++
     append_string (r_display r) ++ append_string (r_desc r)) = Some b).
  { destruct (r_match r) as [[|c m]|]; [discriminate| |]; (destruct (r_display r) as [[|d ds]|]; [discriminate| |]); exact H. }
  injection E as <-. unfold append_string. rewrite !app_length, !map_length. cbn [length].
  destruct r as [m t d e a f]. cbn [r_match r_display r_desc]. rewrite ?app_length, ?map_length. cbn [length]. lia.
Qed.
(** A match is refused exactly if it or its display text is there but empty. *)
Theorem packed_unless_empty r : pack_match magic r = None <-> r_match r = Some [] \/ r_display r = Some [].
Proof.
  unfold pack_match. destruct (r_match r) as [[|c m]|]; [tauto| |]; (destruct (r_display r) as [[|d ds]|]; [tauto| |]);
    split; intro H; try discriminate; destruct H as [H|H]; discriminate.
Qed.

Lemma bytes_type t : (t < 65536)%N -> (N_of_ascii (lo_byte t) + 256 * N_of_ascii (hi_byte t) = t)%N.
Proof.
  intro H. unfold lo_byte, hi_byte. rewrite !N_ascii_embedding by lia. lia.
Qed.

Lemma skip_text n (m r : bytes) : n = length m + 1 -> skipn n (m ++ NUL :: r) = r.
Proof. intros ->. replace (m ++ NUL :: r) with ((m ++ [NUL]) ++ r) by (rewrite <- app_assoc; reflexivity). apply skipn_app_exact. rewrite app_length. reflexivity. Qed.
Lemma skip_head n (m r : bytes) a b c d : n = length m + 1 + 4 + length magic -> skipn n (m ++ NUL :: a :: b :: c :: d :: magic ++ r) = r.
Proof.
  intros ->. replace (m ++ NUL :: a :: b :: c :: d :: magic ++ r) with ((m ++ NUL :: a :: b :: c :: d :: magic) ++ r) by (rewrite <- app_assoc; reflexivity).
  apply skipn_app_exact. rewrite app_length. cbn [length]. lia.
Qed.
Lemma skip_all n (m e r : bytes) a b c d : n = length m + 1 + 4 + length magic + length e + 1 -> skipn n (m ++ NUL :: a :: b :: c :: d :: magic ++ e ++ NUL :: r) = r.
Proof.
  intros ->. replace (m ++ NUL :: a :: b :: c :: d :: magic ++ e ++ NUL :: r) with ((m ++ NUL :: a :: b :: c :: d :: magic ++ e ++ [NUL]) ++ r)
    by (rewrite <- !app_assoc; cbn [app]; rewrite <- !app_assoc; reflexivity).
  apply skipn_app_exact. rewrite app_length. cbn [length]. rewrite !app_length. cbn [length]. lia.
Qed.
Definition x_of (r : record) : extra :=
  let off := N.of_nat (length (text_or_empty (r_match r)) + 5 + length magic) in
  mkx (u16 off) (u16 (off + N.of_nat (length (text_or_empty (r_display r))) + 1)) (r_type r) (r_append r) (r_flags r).
Lemma make_packed r b : texts_ok r -> pack_match magic r = Some b -> make_extra magic b = Some (x_of r).
Proof.
  intros T P. rewrite (pack_form r T) in P. injection P as <-. destruct T as (T1 & _ & _ & T2 & T3 & T4).
  unfold make_extra. rewrite cstr_app by (apply clean_no_nul; auto). cbv zeta.
  rewrite skip_text by (rewrite map_length; reflexivity). cbn [app].
  rewrite skip_head by (rewrite map_length; reflexivity).
  rewrite cstr_app by (apply clean_no_nul; auto). rewrite !map_length, bytes_type by auto. unfold x_of. cbv zeta. f_equal. f_equal; f_equal; lia.
Qed.
Lemma read_packed r b : texts_ok r -> short magic r -> pack_match magic r = Some b -> details_of b (x_of r) = Some (expected r).
Proof.
  intros T S P. rewrite (pack_form r T) in P. injection P as <-. destruct T as (T1 & _ & _ & T2 & T3 & T4). unfold short in S.
  unfold details_of, at_offset, x_of. cbv zeta. cbn [x_display x_desc x_type x_append x_flags]. unfold u16. rewrite !N.mod_small by lia.
  cbn [app].
  rewrite skip_head by (rewrite map_length; lia).
  rewrite skip_all by (rewrite !map_length; lia).
  rewrite !cstr_app by (apply clean_no_nul; auto). unfold expected. rewrite !shown_clean. reflexivity.
Qed.

(** C49: unpacking gives what was packed, and the block starts with the match. *)
Theorem unpack_packed r b : texts_ok r -> short magic r -> pack_match magic r = Some b ->
  cstr b = Some (shown (text_or_empty (r_match r))) /\
  exists x, make_extra magic b = Some x /\ details_of b x = Some (expected r).
Proof.
  intros T S P. split.
  - rewrite (pack_form r T) in P. injection P as <-. destruct T as (T1 & _ & _ & T2 & T3 & T4).
    rewrite cstr_app by (apply clean_no_nul; auto). rewrite shown_clean. reflexivity.
  - exists (x_of r). split; [apply make_packed; auto|eapply read_packed; eauto].
Qed.

(** ** Any number of tables *)
Variable mem : N -> option bytes.
(** What was packed at each pointer. *)
Variable rec_at : N -> option record.
Hypothesis mem_packed : forall p r, rec_at p = Some r -> texts_ok r /\ short magic r /\ exists b, mem p = Some b /\ pack_match magic r = Some b.

Inductive op := Create (arr : N) (ptrs : list N) | Destroy (arr : N) | OneOff (p t : N) (ap fl : byte) | ClearOneOff.
(** Arrays hold pointers to packed matches. *)
Definition op_ok (o : op) : Prop :=
  match o with Create _ ptrs => Forall (fun p => rec_at p <> None) ptrs | OneOff p _ _ _ => p <> 0%N | _ => True end.
Definition step (s : state) (o : op) : option state :=
  match o with
  | Create arr ptrs => create magic mem s arr ptrs
  | Destroy arr => Some (destroy s arr)
  | OneOff p t ap fl => Some (set_oneoff s p t ap fl)
  | ClearOneOff => Some (clear_oneoff s)
  end.
Fixpoint run (s : state) (os : list op) : option state :=
  match os with [] => Some s | o :: r => match step s o with None => None | Some s' => run s' r end end.

(** The arrays that have a table, the last created first. *)
Fixpoint drop_first (arr : N) (l : list (N * list N)) : list (N * list N) :=
  match l with [] => [] | (a, ps) :: r => if N.eqb a arr then r else (a, ps) :: drop_first arr r end.
Definition alive_step (l : list (N * list N)) (o : op) : list (N * list N) :=
  match o with Create arr ptrs => (arr, ptrs) :: l | Destroy arr => drop_first arr l | _ => l end.
Definition alive (os : list op) : list (N * list N) := fold_left alive_step os [].
(** The single match in force. *)
Definition one_step (o1 : option (N * (N * byte * byte))) (o : op) : option (N * (N * byte * byte)) :=
  match o with OneOff p t ap fl => Some (p, (t, ap, fl)) | ClearOneOff => None | _ => o1 end.
Definition oneoff (os : list op) : option (N * (N * byte * byte)) := fold_left one_step os None.

Definition good_map (ptrs : list N) (m : list (N * extra)) : Prop :=
  forall p, match lookup m p with
            | Some x => In p ptrs /\ exists r, rec_at p = Some r /\ x = x_of r
            | None => ~ In p ptrs
            end.
Definition good (s : state) (al : list (N * list N)) (o1 : option (N * (N * byte * byte))) : Prop :=
  Forall2 (fun t a => t_array t = fst a /\ good_map (snd a) (t_map t)) (tables s) al /\
  match o1 with
  | Some (p, (t, ap, fl)) => p <> 0%N /\ one_match s = p /\ one_extra s = mkx 0 0 t ap fl
  | None => one_match s = 0%N /\ one_extra s = x_zero
  end.

Lemma lookup_emplace m p x q : lookup (emplace p x m) q =
  match lookup m q with Some y => Some y | None => if N.eqb p q then Some x else None end.
Proof.
  unfold emplace. destruct (existsb (fun e => N.eqb (fst e) p) m) eqn:E.
  - destruct (lookup m q) eqn:L; auto. destruct (N.eqb_spec p q) as [->|]; auto. exfalso.
    apply existsb_exists in E as ((a & y) & I & E). unfold lookup in L. destruct (find (fun e => N.eqb (fst e) q) m) eqn:F; [discriminate|].
    apply (find_none _ _ F) in I. congruence.
  - unfold lookup at 1. cbn [find fst]. destruct (N.eqb_spec p q) as [->|].
    + cbn [option_map snd]. unfold lookup. destruct (find (fun e => N.eqb (fst e) q) m) as [y|] eqn:F; auto.
      apply find_some in F as [F1 F2]. assert (existsb (fun e => N.eqb (fst e) q) m = true) by (apply existsb_exists; eauto). congruence.
    + unfold lookup. destruct (find (fun e => N.eqb (fst e) q) m); reflexivity.
Qed.
Lemma fill_good ptrs : forall seen m, Forall (fun p => rec_at p <> None) ptrs -> good_map seen m ->
  exists m', fill magic mem ptrs m = Some m' /\ good_map (seen ++ ptrs) m'.
Proof.
  induction ptrs as [|p ptrs IH]; intros seen m F G.
  - exists m. split; [reflexivity|]. rewrite app_nil_r. exact G.
  - pose proof (Forall_inv F) as F1. apply Forall_inv_tail in F. cbn beta in F1. destruct (rec_at p) as [r|] eqn:R; [|congruence].
    destruct (mem_packed p r R) as (T & S & b & M & P). cbn [fill]. rewrite M, (make_packed r b T P).
    destruct (IH (seen ++ [p]) (emplace p (x_of r) m) F) as (m' & A & B).
    + intro q. rewrite lookup_emplace. specialize (G q). destruct (lookup m q) as [y|].
      * destruct G as [G1 G2]. split; [apply in_or_app; left; exact G1|exact G2].
      * destruct (N.eqb_spec p q) as [->|NE].
        { split; [apply in_or_app; right; left; reflexivity|]. exists r. auto. }
        { intro X. apply in_app_or in X as [X|[X|[]]]; [auto|congruence]. }
    + exists m'. split; [exact A|]. rewrite <- app_assoc in B. exact B.
Qed.
Lemma step_good o : forall s al o1, op_ok o -> good s al o1 -> exists s', step s o = Some s' /\ good s' (alive_step al o) (one_step o1 o).
Proof.
  intros s al o1 K [G1 G2]. destruct o as [arr ptrs|arr|p t ap fl|]; cbn [step alive_step one_step].
  - destruct (fill_good ptrs [] [] K) as (m & A & B); [intros q []|]. unfold create. rewrite A. eexists. split; [reflexivity|].
    split; [|exact G2]. cbn [tables]. apply Forall2_cons; [split; [reflexivity|exact B]|exact G1].
  - eexists. split; [reflexivity|]. split; [|exact G2]. unfold destroy. cbn [tables]. clear G2. induction G1 as [|t [a ps] ts l [E M] G1 IH]; cbn [remove drop_first]; [apply Forall2_nil|].
    cbn in E. rewrite E. destruct (N.eqb a arr); [exact G1|]. apply Forall2_cons; [split; [exact E|exact M]|exact IH].
  - eexists. split; [reflexivity|]. split; [exact G1|]. cbn in K. split; [exact K|]. split; [reflexivity|]. unfold set_oneoff. cbn [one_extra].
    destruct o1 as [(p1 & (t1 & ap1) & fl1)|]; [destruct G2 as (_ & _ & ->)|destruct G2 as (_ & ->)]; reflexivity.
  - eexists. split; [reflexivity|]. split; [exact G1|]. split; reflexivity.
Qed.
Lemma run_good os : forall s al o1, Forall op_ok os -> good s al o1 ->
  exists s', run s os = Some s' /\ good s' (fold_left alive_step os al) (fold_left one_step os o1).
Proof.
  induction os as [|o os IH]; intros s al o1 K G; [exists s; auto|]. pose proof (Forall_inv K) as K1. apply Forall_inv_tail in K.
  destruct (step_good o s al o1 K1 G) as (s' & A & B). cbn [run fold_left]. rewrite A. apply IH; auto.
Qed.
Lemma lookup_good ts al p : Forall2 (fun t a => t_array t = fst a /\ good_map (snd a) (t_map t)) ts al ->
  match lookup_tables ts p with
  | Some x => exists r, rec_at p = Some r /\ x = x_of r /\ exists a ps, In (a, ps) al /\ In p ps
  | None => forall a ps, In (a, ps) al -> ~ In p ps
  end.
Proof.
  induction 1 as [|t [a ps] ts al [E M] F IH]; cbn [lookup_tables]; [intros a ps []|]. specialize (M p). cbn [snd] in M.
  destruct (lookup (t_map t) p) as [x|].
  - destruct M as [M1 (r & M2 & M3)]. exists r. split; auto. split; auto. exists a, ps. split; [left; reflexivity|exact M1].
  - destruct (lookup_tables ts p) as [x|].
    + destruct IH as (r & A & B & a' & ps' & C & D). exists r. split; auto. split; auto. exists a', ps'. split; [right; exact C|exact D].
    + intros a' ps' [X|X]; [injection X as <- <-; exact M|]. apply (IH a' ps' X).
Qed.

(** C49: after any number of tables were created and destroyed, nothing is read outside a block, and looking up a match of
    a table that is there gives what was packed, unless it is the single match in force. *)
Theorem lookup_finds os : Forall op_ok os ->
  exists s, run init os = Some s /\
    forall p, p <> 0%N -> (forall o, oneoff os = Some o -> fst o <> p) ->
      match rec_at p with
      | Some r => (exists a ps, In (a, ps) (alive os) /\ In p ps) /\ lookup_match mem s p = Some (expected r) \/
                  (forall a ps, In (a, ps) (alive os) -> ~ In p ps) /\ lookup_match mem s p = Some no_details
      | None => lookup_match mem s p = Some no_details
      end.
Proof.
  intro K. destruct (run_good os init [] None K) as (s & R & G1 & G2).
  { split; [apply Forall2_nil|]. split; reflexivity. }
  exists s. split; [exact R|]. intros p NZ NO. unfold lookup_match. cbv zeta.
  replace (N.eqb (one_match s) p) with false.
  2: { symmetry. apply N.eqb_neq. unfold oneoff in NO. destruct (fold_left one_step os None) as [(p1 & (t1 & ap1) & fl1)|].
       - destruct G2 as (_ & -> & _). intros ->. apply (NO (p, (t1, ap1, fl1)) eq_refl). reflexivity.
       - destruct G2 as (-> & _). auto. }
  pose proof (lookup_good (tables s) _ p G1) as L. fold (alive os) in L. destruct (lookup_tables (tables s) p) as [x|].
  - destruct L as (r & A & -> & L). rewrite A. left. split; [exact L|]. destruct (mem_packed p r A) as (T & S & b & M & P). rewrite M. eapply read_packed; eauto.
  - destruct (rec_at p); [right; split; [exact L|reflexivity]|reflexivity].
Qed.
(** The single match in force has its type, append character and flags (its display text and description: see below). *)
Theorem lookup_oneoff os p t ap fl r : Forall op_ok os -> oneoff os = Some (p, (t, ap, fl)) -> rec_at p = Some r ->
  exists s, run init os = Some s /\
    lookup_match mem s p = Some (mkd t (Some (shown (text_or_empty (r_match r)))) (Some (shown (text_or_empty (r_match r)))) ap fl).
Proof.
  intros K O R. destruct (run_good os init [] None K) as (s & RN & G1 & G2).
  { split; [apply Forall2_nil|]. split; reflexivity. }
  exists s. split; [exact RN|]. unfold oneoff in O. rewrite O in G2. destruct G2 as (_ & E1 & E2). unfold lookup_match. cbv zeta. rewrite E1, N.eqb_refl, E2.
  destruct (mem_packed p r R) as (T & S & b & M & P). rewrite M. destruct (unpack_packed r b T S P) as [C _].
  unfold details_of, at_offset. cbn [x_display x_desc x_type x_append x_flags]. change (N.to_nat 0) with 0. cbn [skipn]. rewrite C. reflexivity.
Qed.
End P.

(** ** What does not hold *)
(** Line breaks and tabs in the match itself (which is what gets inserted) become blanks too. *)
Theorem match_changed_refuted :
  exists b, pack_match [] (mkrec (Some (lit "a" ++ [TAB] ++ lit "b")) 1 None None SPC NUL) = Some b /\ cstr b = Some (lit "a b").
Proof. eexists. split; [reflexivity|]. reflexivity. Qed.

(** The display text of a match of 65531 bytes is not what was packed: the offset does not fit in 16 bits. *)
Theorem long_match_refuted :
  exists m b x, pack_match [] (mkrec (Some m) 1 (Some (lit "shown")) None SPC NUL) = Some b /\ make_extra [] b = Some x /\
    at_offset b (x_display x) = Some m /\ m <> lit "shown" /\ length b = calc_packed_size [] (mkrec (Some m) 1 (Some (lit "shown")) None SPC NUL).
Proof.
  assert (exists m, N.of_nat (length m) = 65531%N /\ ~ In NUL m /\ map clean m = m) as (m & L & NN & CM).
  { exists (repeat "a"%char (N.to_nat 65531)). split; [rewrite repeat_length; apply N2Nat.id|].
    split; [intro H; apply repeat_spec in H; discriminate|]. generalize (N.to_nat 65531). intro n. induction n as [|n IH]; [reflexivity|].
    cbn [repeat map]. rewrite IH. reflexivity. }
  assert (NE : m <> []) by (intro H; rewrite H in L; discriminate).
  assert (T : texts_ok (mkrec (Some m) 1 (Some (lit "shown")) None SPC NUL)).
  { split; [cbn; lia|]. split; [cbn [r_match]; congruence|]. split; [discriminate|]. split; [exact NN|]. split; [cbn; intuition discriminate|intros []]. }
  pose proof (pack_form [] _ T) as P. cbn [r_match r_display r_desc text_or_empty] in P. rewrite CM in P.
  eexists m, _, _. split; [exact P|]. split; [eapply make_packed; eauto|]. split; [|split; [|eapply packed_size; eauto]].
  - unfold at_offset, x_of. cbv zeta. cbn [r_match r_display text_or_empty x_display]. unfold u16.
    replace (N.of_nat (length m + 5 + length (@nil ascii)) mod 65536)%N with 0%N.
    + change (N.to_nat 0) with 0. cbn [skipn]. apply cstr_app. exact NN.
    + cbn [length]. rewrite Nat.add_0_r, Nat2N.inj_add, L. reflexivity.
  - intro H. apply (f_equal (fun l => N.of_nat (length l))) in H. rewrite L in H. discriminate.
Qed.

(** The single match in force is described by its own text, whatever was packed. *)
Definition demo_r : record := mkrec (Some (lit "file.txt")) 513 (Some (lit "File" ++ [CR; LF])) (Some (lit "A file")) SPC "001".
Definition demo_mem (p : N) : option bytes := if N.eqb p 7 then pack_match [] demo_r else None.
Theorem oneoff_description_refuted :
  option_map d_desc match run [] demo_mem init [Create 1 [7%N]] with Some s => lookup_match demo_mem s 7 | None => None end = Some (Some (lit "A file")) /\
  option_map d_desc match run [] demo_mem init [Create 1 [7%N]; OneOff 7 1 SPC NUL] with Some s => lookup_match demo_mem s 7 | None => None end = Some (Some (lit "file.txt")).
Proof. split; vm_compute; reflexivity. Qed.

(** ** Examples *)
Example ex_packed : pack_match [] demo_r =
  Some (lit "file.txt" ++ [NUL; ascii_of_nat 1; ascii_of_nat 2; SPC; "001"%char] ++ lit "File  " ++ [NUL] ++ lit "A file" ++ [NUL]).
Proof. reflexivity. Qed.
Definition demo_rec (p : N) : option record := if N.eqb p 7 then Some demo_r else None.
Example ex_hyp : forall p r, demo_rec p = Some r -> texts_ok r /\ short [] r /\ exists b, demo_mem p = Some b /\ pack_match [] r = Some b.
Proof.
  intros p r. unfold demo_rec, demo_mem. destruct (N.eqb p 7); [|discriminate]. intro H. injection H as <-.
  split; [|split; [vm_compute; reflexivity|eexists; split; reflexivity]].
  split; [reflexivity|]. split; [discriminate|]. split; [discriminate|]. split; [|split]; cbn; intuition discriminate.
Qed.
Example ex_run : alive [Create 1 [7%N]; Create 2 [7%N]; OneOff 9 1 SPC NUL; Destroy 2; ClearOneOff] = [(1%N, [7%N])] /\
  match run [] demo_mem init [Create 1 [7%N]; Create 2 [7%N]; OneOff 9 1 SPC NUL; Destroy 2; ClearOneOff] with
  | Some s => lookup_match demo_mem s 7 = Some (mkd 513 (Some (lit "File  ")) (Some (lit "A file")) SPC "001") | None => False end.
Proof. split; vm_compute; reflexivity. Qed.

Print Assumptions packed_size.
Print Assumptions packed_unless_empty.
Print Assumptions unpack_packed.
Print Assumptions lookup_finds.
Print Assumptions lookup_oneoff.
Print Assumptions match_changed_refuted.
Print Assumptions long_match_refuted.
Print Assumptions oneoff_description_refuted.
