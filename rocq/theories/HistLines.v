(** Lemmas about the specification of history files (HistSpec.v): appending, marking. *)
From Verif Require Import Base HistFileModel HistSpec HistFileProofs.

Lemma raw_lines_app_ne o cur f g : f <> [] -> terminated f ->
  raw_lines o cur (f ++ g) = raw_lines o cur f ++ raw_lines (o + length f) [] g.
Proof.
  revert o cur; induction f as [|c f IH]; intros o cur Hne Ht; [congruence|].
  destruct f as [|d f].
  - destruct Ht as [H|(h & b & H & Hb)]; [discriminate|].
    destruct h as [|x h]; [|destruct h; discriminate]. injection H as ->.
    cbn [app raw_lines length]. rewrite Hb. replace (o + 1) with (S o) by lia.
    destruct cur; reflexivity.
  - apply (terminated_tail [c]) in Ht; [|discriminate].
    change ((c :: d :: f) ++ g) with (c :: ((d :: f) ++ g)).
    cbn [raw_lines]. fold (raw_lines).
    assert (Hd : d :: f <> []) by discriminate.
    replace (o + length (c :: d :: f)) with (S o + length (d :: f)) by (cbn [length]; lia).
    destruct (brk c).
    + destruct cur; rewrite (IH (S o) [] Hd Ht); reflexivity.
    + rewrite (IH (S o) (cur ++ [c]) Hd Ht). reflexivity.
Qed.

Lemma raw_lines_app o f g : terminated f ->
  raw_lines o [] (f ++ g) = raw_lines o [] f ++ raw_lines (o + length f) [] g.
Proof.
  intros Ht. destruct f as [|c f].
  - cbn [app raw_lines length]. rewrite Nat.add_0_r. reflexivity.
  - apply raw_lines_app_ne; auto. discriminate.
Qed.

Lemma lines_of_app f g : terminated f ->
  lines_of (f ++ g) = lines_of f ++ raw_lines (length f) [] g.
Proof. apply (raw_lines_app 0). Qed.

(** Shifting *)
Lemma raw_lines_shift k o cur f : length cur <= o ->
  raw_lines (k + o) cur f = map (fun l => (k + fst l, snd l)) (raw_lines o cur f).
Proof.
  revert o cur; induction f as [|c f IH]; intros o cur H; cbn [raw_lines map]; auto.
  destruct (brk c).
  - destruct cur as [|x cur].
    + rewrite <- IH by (cbn; lia). f_equal. lia.
    + cbn [map fst snd]. rewrite <- IH by (cbn; lia). f_equal; [f_equal; lia|f_equal; lia].
  - rewrite <- IH by (rewrite app_length; cbn; lia). f_equal. lia.
Qed.

Lemma raw_lines_shift0 k f : raw_lines k [] f = map (fun l => (k + fst l, snd l)) (lines_of f).
Proof. unfold lines_of. rewrite <- (raw_lines_shift k 0); auto. f_equal. lia. Qed.

(** ** Declarative characterisation *)

Definition line_at (f : bytes) (o : nat) (t : bytes) : Prop :=
  exists pre b post, f = pre ++ t ++ b :: post /\ length pre = o /\ terminated pre /\
    t <> [] /\ no_brk t = true /\ brk b = true.

Lemma terminated_brks bs : forallb brk bs = true -> terminated bs.
Proof.
  induction bs as [|b bs IH]; intro H; [left; auto|].
  cbn in H. apply andb_true_iff in H as [Hb H]. apply terminated_cons; auto.
Qed.

Lemma lines_of_line_at f o t : line_at f o t ->
  exists pre b post, f = pre ++ t ++ b :: post /\ length pre = o /\ terminated pre /\
    no_brk t = true /\ brk b = true /\ t <> [] /\
    lines_of f = lines_of pre ++ (o, t) :: raw_lines (o + length t) [] (b :: post).
Proof.
  intros (pre & b & post & -> & <- & Ht & Hne & Hnb & Hb).
  exists pre, b, post. split; [reflexivity|]. split; [reflexivity|]. do 4 (split; [auto|]).
  rewrite lines_of_app by auto. f_equal. rewrite raw_lines_run; auto.
  cbn [length app]. rewrite Nat.sub_0_r. reflexivity.
Qed.

Lemma line_at_in f o t : line_at f o t -> In (o, t) (lines_of f).
Proof.
  intro H. apply lines_of_line_at in H as (pre & b & post & _ & _ & _ & _ & _ & _ & ->).
  apply in_or_app. right. left. reflexivity.
Qed.

Lemma terminated_snoc f b : brk b = true -> terminated (f ++ [b]).
Proof. intro H. right. eauto. Qed.

Lemma in_line_at f o t : In (o, t) (lines_of f) -> line_at f o t.
Proof.
  remember (length f) as n eqn:En. revert f o t En.
  induction n as [n IH] using lt_wf_ind; intros f o t -> Hin.
  destruct (split_run f) as (bs & run & rest & E & H1 & H2 & H3 & H4 & H5 & H6).
  destruct rest as [|b post].
  - exfalso. rewrite app_nil_r in E. subst f. unfold lines_of in Hin.
    rewrite raw_lines_brks in Hin by auto. rewrite raw_lines_nobrk in Hin by auto. destruct Hin.
  - assert (Hb : brk b = true) by (eapply H4; reflexivity).
    assert (Hr : run <> []) by (intros ->; specialize (H3 eq_refl); discriminate).
    subst f. unfold lines_of in Hin. rewrite raw_lines_brks in Hin by auto.
    rewrite raw_lines_run in Hin; auto. cbn [app length] in Hin. rewrite Nat.sub_0_r in Hin.
    destruct Hin as [Hin|Hin].
    + injection Hin as <- <-. exists bs, b, post. repeat split; auto. apply terminated_brks; auto.
    + rewrite raw_lines_shift0 in Hin. apply in_map_iff in Hin as ([o' t'] & Heq & Hin).
      cbn in Heq. injection Heq as <- <-.
      apply (IH (length (b :: post))) in Hin; auto.
      * destruct Hin as (pre & b' & post' & Hf & Hl & Ht & Hne & Hnb & Hb').
        exists (bs ++ run ++ pre), b', post'. rewrite Hf. repeat split; auto.
        -- rewrite <- !app_assoc. reflexivity.
        -- rewrite !app_length. lia.
        -- destruct pre as [|c pre].
           ++ cbn in Hf. destruct t' as [|c t']; [congruence|]. cbn in Hf. injection Hf as -> _.
              cbn in Hnb. rewrite Hb in Hnb. discriminate.
           ++ destruct Ht as [Ht|(g & x & Ht & Hx)]; [discriminate|]. rewrite Ht.
              rewrite !app_assoc. apply terminated_snoc; auto.
      * rewrite !app_length. cbn. destruct run; [congruence|]. cbn. lia.
Qed.

Lemma lines_of_iff f o t : In (o, t) (lines_of f) <-> line_at f o t.
Proof. split; [apply in_line_at|apply line_at_in]. Qed.

(** Offsets strictly increase and lie inside the file. *)
Lemma raw_lines_bounds o cur f l : length cur <= o -> In l (raw_lines o cur f) ->
  o - length cur <= fst l /\ fst l + length (snd l) < o + length f.
Proof.
  revert o cur; induction f as [|c f IH]; intros o cur Hc Hin; cbn [raw_lines] in Hin; [destruct Hin|].
  destruct (brk c).
  - destruct cur as [|x cur].
    + apply IH in Hin; [|cbn; lia]. cbn [length] in *. lia.
    + destruct Hin as [<-|Hin].
      * cbn [fst snd length] in *. lia.
      * apply IH in Hin; [|cbn; lia]. cbn [length] in *. lia.
  - apply IH in Hin; [|rewrite app_length; cbn; lia]. rewrite app_length in Hin. cbn [length] in *. lia.
Qed.

Lemma lines_of_bounds f o t : In (o, t) (lines_of f) -> o + length t < length f.
Proof. intro H. apply raw_lines_bounds in H; cbn in *; lia. Qed.

Inductive ascending : list (nat * bytes) -> Prop :=
| asc_nil : ascending []
| asc_cons l ls : (forall m, In m ls -> fst l < fst m) -> ascending ls -> ascending (l :: ls).

Lemma raw_lines_ascending o cur f : length cur <= o -> ascending (raw_lines o cur f).
Proof.
  revert o cur; induction f as [|c f IH]; intros o cur Hc; cbn [raw_lines]; [constructor|].
  destruct (brk c).
  - destruct cur as [|x cur]; [apply IH; cbn; lia|].
    constructor; [|apply IH; cbn; lia].
    intros m Hm. apply raw_lines_bounds in Hm; [|cbn; lia]. cbn [fst length] in *. lia.
  - apply IH. rewrite app_length; cbn; lia.
Qed.

Lemma lines_of_ascending f : ascending (lines_of f).
Proof. apply raw_lines_ascending. cbn; lia. Qed.

Lemma ascending_unique ls o t t' : ascending ls -> In (o, t) ls -> In (o, t') ls -> t = t'.
Proof.
  induction 1 as [|l ls Hlt Ha IH]; intros H1 H2; [destruct H1|].
  destruct H1 as [->|H1], H2 as [H2|H2]; auto; try congruence.
  - apply Hlt in H2. cbn in H2. lia.
  - apply Hlt in H1. subst l. cbn in H1. lia.
Qed.

(** ** Visible entries *)

Fixpoint ts_after (removed : nat -> bool) (ts : option (nat * bytes)) (ls : list (nat * bytes))
  : option (nat * bytes) :=
  match ls with
  | [] => ts
  | (o, t) :: ls' =>
      if time_line t then ts_after removed (Some (o, skipn 7 t)) ls'
      else if bar_line t then ts_after removed None ls'
      else if removed o then ts_after removed ts ls'
      else ts_after removed None ls'
  end.

Lemma visible_from_app rm ts l1 l2 :
  visible_from rm ts (l1 ++ l2) = visible_from rm ts l1 ++ visible_from rm (ts_after rm ts l1) l2.
Proof.
  revert ts; induction l1 as [|[o t] l1 IH]; intro ts; cbn [app visible_from ts_after]; auto.
  destruct (time_line t), (bar_line t), (rm o); cbn [app]; rewrite ?IH; auto.
Qed.

Lemma ts_after_app rm ts l1 l2 : ts_after rm ts (l1 ++ l2) = ts_after rm (ts_after rm ts l1) l2.
Proof.
  revert ts; induction l1 as [|[o t] l1 IH]; intro ts; cbn [app ts_after]; auto.
  destruct (time_line t), (bar_line t), (rm o); rewrite ?IH; auto.
Qed.

Lemma visible_from_ext rm rm' ts ls : (forall o t, In (o, t) ls -> rm o = rm' o) ->
  visible_from rm ts ls = visible_from rm' ts ls.
Proof.
  revert ts; induction ls as [|[o t] ls IH]; intros ts H; cbn [visible_from]; auto.
  rewrite (H o t) by (left; auto).
  assert (H' : forall o t, In (o, t) ls -> rm o = rm' o) by (intros; eapply H; right; eauto).
  destruct (time_line t), (bar_line t), (rm' o); rewrite ?IH; auto.
Qed.

(** A visible entry is a line of the file that is not a '|' line and not removed. *)
Lemma visible_from_in rm ts ls e : In e (visible_from rm ts ls) ->
  In (v_off e, v_text e) ls /\ bar_line (v_text e) = false /\ rm (v_off e) = false.
Proof.
  revert ts; induction ls as [|[o t] ls IH]; intros ts H; cbn [visible_from] in H; [destruct H|].
  destruct (time_line t) eqn:Et; [apply IH in H as (A & B & C); repeat split; auto; right; auto|].
  destruct (bar_line t) eqn:Eb; [apply IH in H as (A & B & C); repeat split; auto; right; auto|].
  destruct (rm o) eqn:Er; [apply IH in H as (A & B & C); repeat split; auto; right; auto|].
  destruct H as [<-|H].
  - cbn. repeat split; auto.
  - apply IH in H as (A & B & C). repeat split; auto; right; auto.
Qed.

Lemma bar_false_time t : bar_line t = false -> time_line t = false.
Proof. intro H. destruct (time_line t) eqn:E; auto. apply time_is_bar in E. congruence. Qed.

Lemma in_visible_from rm ts ls o t : In (o, t) ls -> bar_line t = false -> rm o = false ->
  exists s, In (mkV o t s) (visible_from rm ts ls).
Proof.
  revert ts; induction ls as [|[o' t'] ls IH]; intros ts H Hb Hr; [destruct H|].
  cbn [visible_from]. destruct H as [H|H].
  - injection H as -> ->. rewrite (bar_false_time t Hb), Hb, Hr. exists ts. left. reflexivity.
  - destruct (time_line t'); [apply IH; auto|]. destruct (bar_line t'); [apply IH; auto|].
    destruct (rm o'); [apply IH; auto|]. destruct (IH None H Hb Hr) as [s Hs]. exists s. right. exact Hs.
Qed.

(** Offsets of visible entries strictly increase. *)
Lemma visible_from_ascending rm ts ls : ascending ls ->
  ascending (map (fun e => (v_off e, v_text e)) (visible_from rm ts ls)).
Proof.
  intro H; revert ts; induction H as [|[o t] ls Hlt Ha IH]; intro ts; cbn [visible_from]; [constructor|].
  destruct (time_line t); [apply IH|]. destruct (bar_line t); [apply IH|]. destruct (rm o); [apply IH|].
  cbn [map v_off v_text]. constructor; [|apply IH].
  intros m Hm. apply in_map_iff in Hm as (e & <- & He). apply visible_from_in in He as (He & _).
  apply Hlt in He. exact He.
Qed.

(** ** Appending a line *)

Lemma raw_lines_line o t : t <> [] -> no_brk t = true -> raw_lines o [] (t ++ [LF]) = [(o, t)].
Proof.
  intros Hne Hnb. rewrite raw_lines_run; auto. cbn. rewrite Nat.sub_0_r. reflexivity.
Qed.

Lemma lines_of_add f t : terminated f -> t <> [] -> no_brk t = true ->
  lines_of (f ++ t ++ [LF]) = lines_of f ++ [(length f, t)].
Proof. intros Hf Hne Hnb. rewrite lines_of_app, raw_lines_line by auto. reflexivity. Qed.

Lemma terminated_add f t : terminated (f ++ t ++ [LF]).
Proof. rewrite app_assoc. apply terminated_snoc. reflexivity. Qed.

(** ** Marking a line *)

Definition mark_line (o : nat) (l : nat * bytes) : nat * bytes :=
  if Nat.eqb (fst l) o then (fst l, BAR :: tl (snd l)) else l.

Lemma map_mark_other o ls : (forall l, In l ls -> fst l <> o) -> map (mark_line o) ls = ls.
Proof.
  induction ls as [|l ls IH]; intro H; cbn [map]; auto.
  rewrite IH by (intros; apply H; right; auto).
  unfold mark_line. replace (fst l =? o) with false; auto.
  symmetry. apply Nat.eqb_neq. apply H. left; auto.
Qed.

Lemma write_at_inside f o c : o < length f -> write_at f o [c] = firstn o f ++ c :: skipn (S o) f.
Proof.
  intro H. unfold write_at. replace (o - length f) with 0 by lia. cbn [repeat app length].
  replace (o + 1) with (S o) by lia. reflexivity.
Qed.

Lemma write_at_length f o c : o < length f -> length (write_at f o [c]) = length f.
Proof.
  intro H. rewrite write_at_inside by auto. rewrite app_length. cbn [length].
  rewrite firstn_length, skipn_length. lia.
Qed.

Lemma mark_decomp pre x t b post : 
  wl_mark (pre ++ (x :: t) ++ b :: post) (length pre) = pre ++ (BAR :: t) ++ b :: post.
Proof.
  unfold wl_mark. rewrite write_at_inside.
  - rewrite firstn_app_exact by auto. f_equal. cbn [app].
    replace (S (length pre)) with (length pre + 1) by lia. rewrite skipn_add.
    rewrite skipn_app_exact by auto. reflexivity.
  - rewrite app_length. cbn. lia.
Qed.

Lemma mark_lines f o t : In (o, t) (lines_of f) ->
  lines_of (wl_mark f o) = map (mark_line o) (lines_of f).
Proof.
  intro H. apply in_line_at in H. 
  apply lines_of_line_at in H as (pre & b & post & -> & Ho & Ht & Hnb & Hb & Hne & ->).
  destruct t as [|x t]; [congruence|]. subst o. rewrite mark_decomp.
  rewrite lines_of_app by auto. rewrite map_app. cbn [map].
  rewrite (map_mark_other _ (lines_of pre)).
  - f_equal. rewrite raw_lines_run; auto; try discriminate.
    + cbn [length app]. rewrite Nat.sub_0_r. f_equal.
      * unfold mark_line. cbn [fst]. rewrite Nat.eqb_refl. reflexivity.
      * symmetry. apply map_mark_other. intros l Hl.
        apply raw_lines_bounds in Hl; [|cbn; lia]. cbn [length] in *. lia.
    + cbn in Hnb |- *. apply andb_true_iff in Hnb as [_ Hnb]. exact Hnb.
  - intros [o' t'] Hl. apply lines_of_bounds in Hl. cbn. lia.
Qed.

Lemma mark_terminated f o t : In (o, t) (lines_of f) -> terminated f -> terminated (wl_mark f o).
Proof.
  intros H Hf. apply in_line_at in H as (pre & b & post & -> & <- & Ht & Hne & Hnb & Hb).
  destruct t as [|x t]; [congruence|]. rewrite mark_decomp.
  rewrite app_assoc in *. apply (terminated_tail (pre ++ x :: t) (b :: post)) in Hf; [|discriminate].
  destruct Hf as [Hf|(g & c & E & Hc)]; [discriminate|]. rewrite E, app_assoc. apply terminated_snoc; auto.
Qed.

Lemma mark_length f o : o < length f -> length (wl_mark f o) = length f.
Proof. apply write_at_length. Qed.

(** A text whose marked form would read as a time stamp line. *)
Definition fakes_time (t : bytes) : bool := time_line (BAR :: tl t).

(** Removing a visible entry by marking. *)
Lemma visible_mark_from rm ts ls o : ascending ls ->
  (forall t, In (o, t) ls -> bar_line t = false /\ rm o = false /\ fakes_time t = false) ->
  visible_from rm ts (map (mark_line o) ls) =
  filter (fun e => negb (Nat.eqb (v_off e) o)) (visible_from rm ts ls).
Proof.
  intro H; revert ts; induction H as [|[o' t'] ls Hlt Ha IH]; intros ts Hok; [reflexivity|].
  assert (Hok' : forall t, In (o, t) ls -> bar_line t = false /\ rm o = false /\ fakes_time t = false)
    by (intros t Ht; apply Hok; right; auto).
  cbn [map]. unfold mark_line at 1. cbn [fst snd].
  destruct (Nat.eqb_spec o' o) as [->|Hne].
  - destruct (Hok t' (or_introl eq_refl)) as (Hb & Hr & Hf).
    cbn [visible_from]. unfold fakes_time in Hf. rewrite Hf, (bar_false_time _ Hb), Hb, Hr.
    change (bar_line (BAR :: tl t')) with true. cbn [filter v_off]. rewrite Nat.eqb_refl. cbn [negb].
    apply IH; auto.
  - cbn [visible_from]. destruct (time_line t'); [apply IH; auto|].
    destruct (bar_line t'); [apply IH; auto|]. destruct (rm o'); [apply IH; auto|].
    cbn [filter v_off]. apply Nat.eqb_neq in Hne. rewrite Hne. cbn [negb]. f_equal. apply IH; auto.
Qed.
