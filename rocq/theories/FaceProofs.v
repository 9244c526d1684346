(** Proofs about the coloring of the input line. *)
From Verif Require Import Base ColorModel FaceModel FaceSpec.
From Verif Require SettingsSpec SettingsProofs.

Notation alike := SettingsSpec.alike.
Notation iequal_alike := SettingsProofs.iequal_alike.
Lemma alike_sym a b : alike a b -> alike b a.
Proof. unfold alike. auto. Qed.
Lemma alike_trans a b c : alike a b -> alike b c -> alike a c.
Proof. unfold alike. congruence. Qed.

(** ** Definitions *)
Definition faces_from (i : nat) (ds : list bytes) : list (bytes * byte) := combine ds (map face_of (seq i (length ds))).
Definition defs_ok (ds : list bytes) : Prop :=
  Forall (fun d => d <> []) ds /\ length ds <= face_max /\ ForallOrdPairs (fun a b => ~ alike a b) ds.
Lemma faces_snoc i ds t : faces_from i (ds ++ [t]) = faces_from i ds ++ [(t, face_of (i + length ds))].
Proof.
  revert i. induction ds as [|d ds IH]; intro i; unfold faces_from in *; cbn [app length seq map combine].
  - rewrite Nat.add_0_r. reflexivity.
  - f_equal. rewrite (IH (S i)). replace (S i + length ds) with (i + S (length ds)) by lia. reflexivity.
Qed.
Lemma face_of_nat i : i < 128 -> nat_of_ascii (face_of i) = 128 + i.
Proof. intro H. unfold face_of. apply nat_ascii_embedding. lia. Qed.
Lemma find_faces ds : forall i k, match map_find k (faces_from i ds) with
  | Some f => exists j d, nth_error ds j = Some d /\ alike d k /\ f = face_of (i + j)
  | None => forall d, In d ds -> ~ alike d k
  end.
Proof.
  induction ds as [|d ds IH]; intros i k.
  - cbn. tauto.
  - unfold map_find, faces_from. cbn [length seq map combine find fst]. destruct (iequal d k) eqn:E.
    + cbn [option_map snd]. exists 0, d. split; [reflexivity|]. split; [apply iequal_alike; exact E|]. rewrite Nat.add_0_r. reflexivity.
    + specialize (IH (S i) k). unfold map_find, faces_from in IH.
      destruct (option_map snd (find (fun e => iequal (fst e) k) (combine ds (map face_of (seq (S i) (length ds)))))) as [f|].
      * destruct IH as (j & d' & A & B & C). exists (S j), d'. split; [exact A|]. split; [exact B|]. rewrite C. f_equal. lia.
      * intros d' [<-|I]; [rewrite <- iequal_alike, E; discriminate|auto].
Qed.
Lemma unlike_snoc ds t : ForallOrdPairs (fun a b => ~ alike a b) ds -> (forall d, In d ds -> ~ alike d t) -> ForallOrdPairs (fun a b => ~ alike a b) (ds ++ [t]).
Proof.
  intro F. induction F as [|d ds F1 F IH]; intro H; cbn [app].
  - apply FOP_cons; [apply Forall_nil|apply FOP_nil].
  - apply FOP_cons; [|apply IH; intros d' I; apply H; right; exact I].
    apply Forall_app. split; [exact F1|]. apply Forall_cons; [|apply Forall_nil]. apply H. left. reflexivity.
Qed.
Lemma no_nil ds : Forall (fun d => d <> []) ds -> existsb is_nil ds = false.
Proof. induction 1 as [|d ds H F IH]; cbn [existsb]; [reflexivity|]. rewrite IH. destruct d; [congruence|reflexivity]. Qed.
Lemma add_def_ok ds t : defs_ok ds -> (forall d, In d ds -> ~ alike d t) ->
  add_def t (ds, faces_from 0 ds) = Some (ds ++ [t], faces_from 0 (ds ++ [t])).
Proof.
  intros (A & B & C) N. unfold add_def. rewrite (no_nil ds A). f_equal. f_equal.
  unfold map_emplace. pose proof (find_faces ds 0 t) as X. destruct (map_find t (faces_from 0 ds)) as [f|].
  - destruct X as (j & d & I & AL & _). exfalso. apply (N d); [eapply nth_error_In; eauto|exact AL].
  - rewrite faces_snoc. reflexivity.
Qed.
Lemma add_defs_ok ts : forall ds, defs_ok (ds ++ ts) -> add_defs ts (ds, faces_from 0 ds) = Some (ds ++ ts, faces_from 0 (ds ++ ts)).
Proof.
  induction ts as [|t ts IH]; intros ds K.
  - rewrite app_nil_r. reflexivity.
  - cbn [add_defs]. replace (ds ++ t :: ts) with ((ds ++ [t]) ++ ts) in * by (rewrite <- app_assoc; reflexivity).
    assert (K1 : defs_ok (ds ++ [t])).
    { destruct K as (A & B & C). split; [apply Forall_app in A; tauto|]. split; [rewrite app_length in B; lia|].
      clear - C. induction (ds ++ [t]) as [|x l IH]; [apply FOP_nil|]. cbn [app] in C. inversion C; subst. apply FOP_cons; [|auto]. apply Forall_app in H1. tauto. }
    assert (K2 : defs_ok ds /\ forall d, In d ds -> ~ alike d t).
    { destruct K1 as (A & B & C). apply Forall_app in A. rewrite app_length in B. split.
      - split; [tauto|]. split; [lia|]. clear - C. induction ds as [|x l IH]; [apply FOP_nil|]. cbn [app] in C. inversion C; subst. apply FOP_cons; [|auto]. apply Forall_app in H1. tauto.
      - clear - C. induction ds as [|x l IH]; intros d [].
        + subst. cbn [app] in C. inversion C; subst. apply Forall_app in H1 as [_ H1]. apply Forall_inv in H1. exact H1.
        + cbn [app] in C. inversion C; subst. auto. }
    destruct K2 as [K2 K3]. rewrite (add_def_ok ds t K2 K3). apply IH. exact K.
Qed.

(** ** Invariant *)
Definition bytes_ok (k : nat) (l : bytes) : Prop := Forall (fun f => f <> NUL /\ nat_of_ascii f < 128 + k) l.
Definition arrays_ok (s : wc) : Prop :=
  match w_faces s, w_words s with
  | None, None => w_len s = 0
  | Some f, Some w => 0 < w_len s /\ length f = w_len s /\ length w = w_len s /\
                      bytes_ok (length (w_defs s)) f /\ bytes_ok 0 w
  | _, _ => False
  end.
Definition inv (s : wc) : Prop := defs_ok (w_defs s) /\ w_map s = faces_from 0 (w_defs s) /\ arrays_ok s.
(** The definitions are among these codes. *)
Lemma inv0 : inv wc0.
Proof. split; [split; [apply Forall_nil|split; [cbn; lia|apply FOP_nil]]|]. split; reflexivity. Qed.

Lemma bytes_weaken k k' l : k <= k' -> bytes_ok k l -> bytes_ok k' l.
Proof. intros L H. unfold bytes_ok in *. eapply Forall_impl; [|exact H]. cbn beta. intros f [A B]. split; [exact A|lia]. Qed.

Lemma init_inv n ds arg : defs_ok ds -> exists s, init n ds arg = Some s /\ inv s /\ w_defs s = ds /\ w_len s = n /\ w_arg s = arg /\
  (0 < n -> w_faces s = Some (repeat FACE_SPACE n) /\ w_words s = Some (repeat FACE_SPACE n)).
Proof.
  intro K. unfold init. pose proof (add_defs_ok ds [] K) as E. cbn [app] in E. change ([], faces_from 0 []) with (@nil bytes, @nil (bytes * byte)) in E.
  rewrite E. eexists. split; [reflexivity|]. destruct n as [|n].
  - split; [|cbn; split; [reflexivity|split; [reflexivity|split; [reflexivity|lia]]]]. split; [exact K|]. split; reflexivity.
  - assert (R : forall k m, bytes_ok k (repeat FACE_SPACE m)).
    { intros k m. apply Forall_forall. intros f I. apply repeat_spec in I. subst. split; [discriminate|]. change (nat_of_ascii FACE_SPACE) with 32. lia. }
    split; [|cbn [w_defs w_len w_arg w_faces w_words]; split; [reflexivity|split; [reflexivity|split; [reflexivity|split; reflexivity]]]].
    split; [exact K|]. split; [reflexivity|]. unfold arrays_ok. cbn [w_faces w_words w_len w_defs].
    split; [lia|]. rewrite repeat_length. split; [reflexivity|]. split; [reflexivity|]. split; apply R.
Qed.

(** ** Applying a face *)
Lemma set_nth_len l i f : length (set_nth l i f) = length l.
Proof.
  unfold set_nth. rewrite app_length, firstn_length. destruct (skipn i l) as [|x r] eqn:E.
  - apply (f_equal (@length _)) in E. rewrite skipn_length in E. cbn [length] in *. lia.
  - apply (f_equal (@length _)) in E. rewrite skipn_length in E. cbn [length] in *. lia.
Qed.
Lemma nth_set_nth l : forall i f p, i < length l -> nth p (set_nth l i f) NUL = if p =? i then f else nth p l NUL.
Proof.
  induction l as [|x l IH]; intros i f p H; cbn [length] in H; [lia|]. destruct i as [|i].
  - destruct p; reflexivity.
  - unfold set_nth. cbn [firstn skipn app]. destruct p as [|p]; [reflexivity|]. cbn [nth]. change (firstn i l ++ match skipn i l with [] => [] | _ :: r => f :: r end) with (set_nth l i f).
    rewrite IH by lia. reflexivity.
Qed.
Lemma apply_loop_len k : forall l i n f ow, length (apply_loop k l i n f ow) = length l.
Proof.
  induction k as [|k IH]; intros l i n f ow; cbn [apply_loop]; [reflexivity|]. destruct (N.eqb n 0); [reflexivity|]. rewrite IH.
  destruct (ow || _); [apply set_nth_len|reflexivity].
Qed.
Definition put (old f : byte) (ow : bool) : byte := if ow || Ascii.eqb old FACE_SPACE then f else old.
Lemma apply_loop_nth k : forall l i n f ow p, i + k <= length l ->
  nth p (apply_loop k l i n f ow) NUL = if (i <=? p) && (p <? i + k) && N.ltb (N.of_nat (p - i)) n then put (nth p l NUL) f ow else nth p l NUL.
Proof.
  induction k as [|k IH]; intros l i n f ow p H; cbn [apply_loop].
  - destruct (i <=? p) eqn:A; cbn [andb]; auto. destruct (p <? i + 0) eqn:B; auto. lia.
  - destruct (N.eqb_spec n 0) as [->|NZ].
    { destruct ((i <=? p) && (p <? i + S k)); cbn [andb]; auto. destruct (N.ltb_spec (N.of_nat (p - i)) 0); [lia|reflexivity]. }
    assert (L : length (if ow || Ascii.eqb (nth i l NUL) FACE_SPACE then set_nth l i f else l) = length l) by (destruct (ow || _); [apply set_nth_len|reflexivity]).
    rewrite IH by (rewrite L; lia).
    assert (E : nth p (if ow || Ascii.eqb (nth i l NUL) FACE_SPACE then set_nth l i f else l) NUL = if p =? i then put (nth i l NUL) f ow else nth p l NUL).
    { unfold put. destruct (ow || Ascii.eqb (nth i l NUL) FACE_SPACE).
      - apply nth_set_nth. lia.
      - destruct (Nat.eqb_spec p i) as [->|]; reflexivity. }
    rewrite E. destruct (Nat.eqb_spec p i) as [->|NE].
    + replace (S i <=? i) with false by lia. cbn [andb]. replace (i <=? i) with true by lia. replace (i <? i + S k) with true by lia. cbn [andb].
      replace (N.ltb (N.of_nat (i - i)) n) with true by lia. reflexivity.
    + replace ((S i <=? p) && (p <? S i + k) && N.ltb (N.of_nat (p - S i)) (n - 1)) with ((i <=? p) && (p <? i + S k) && N.ltb (N.of_nat (p - i)) n) by lia.
      reflexivity.
Qed.
Lemma apply_faces_nth n l st ln f ow p : length l = n -> p < n ->
  exists l', apply_faces n (Some l) st ln f ow = Some l' /\ length l' = n /\
    nth p l' NUL = if N.leb st (N.of_nat p) && N.ltb (N.of_nat p) (st + ln) then put (nth p l NUL) f ow else nth p l NUL.
Proof.
  intros L P. unfold apply_faces. eexists. split; [reflexivity|]. destruct (N.leb_spec (N.of_nat n) st) as [A|A].
  - split; [exact L|]. replace (N.leb st (N.of_nat p)) with false by lia. reflexivity.
  - split; [rewrite apply_loop_len; exact L|]. rewrite apply_loop_nth by lia.
    replace ((N.to_nat st <=? p) && (p <? N.to_nat st + (n - N.to_nat st)) && N.ltb (N.of_nat (p - N.to_nat st)) ln) with (N.leb st (N.of_nat p) && N.ltb (N.of_nat p) (st + ln)) by lia.
    reflexivity.
Qed.
Lemma put_ok k old f ow : (old <> NUL /\ nat_of_ascii old < 128 + k) -> (f <> NUL /\ nat_of_ascii f < 128 + k) ->
  put old f ow <> NUL /\ nat_of_ascii (put old f ow) < 128 + k.
Proof. intros A B. unfold put. destruct (ow || _); assumption. Qed.
Lemma apply_faces_ok k n l st ln f ow : length l = n -> bytes_ok k l -> (f <> NUL /\ nat_of_ascii f < 128 + k) ->
  exists l', apply_faces n (Some l) st ln f ow = Some l' /\ length l' = n /\ bytes_ok k l' /\
   forall p, p < n -> nth p l' NUL = if N.leb st (N.of_nat p) && N.ltb (N.of_nat p) (st + ln) then put (nth p l NUL) f ow else nth p l NUL.
Proof.
  intros L B F. unfold apply_faces. eexists. split; [reflexivity|].
  set (l' := if (N.of_nat n <=? st)%N then l else _).
  assert (LL : length l' = n). { unfold l'. destruct (N.of_nat n <=? st)%N; [exact L|rewrite apply_loop_len; exact L]. }
  assert (NT : forall p, p < n -> nth p l' NUL = if N.leb st (N.of_nat p) && N.ltb (N.of_nat p) (st + ln) then put (nth p l NUL) f ow else nth p l NUL).
  { intros p P. destruct (apply_faces_nth n l st ln f ow p L P) as (l2 & A & _ & C). unfold apply_faces in A. injection A as A. fold l' in A. rewrite A. exact C. }
  split; [exact LL|]. split; [|exact NT].
  apply Forall_forall. intros x I. apply (In_nth _ _ NUL) in I as (p & P & <-). rewrite NT by lia.
  assert (Q : nth p l NUL <> NUL /\ nat_of_ascii (nth p l NUL) < 128 + k).
  { unfold bytes_ok in B. rewrite Forall_forall in B. apply B. apply nth_In. lia. }
  destruct (_ && _); [apply put_ok; auto|exact Q].
Qed.

(** ** Looks *)
Lemma looks_std s f : nat_of_ascii f < 128 -> looks s f = Face f.
Proof. intro H. unfold looks, get_face_output. replace (nat_of_ascii f <? 128) with true by lia. reflexivity. Qed.
Lemma looks_def s i d : i < 128 -> nth_error (w_defs s) i = Some d -> looks s (face_of i) = Code d.
Proof. intros H E. unfold looks, get_face_output. rewrite face_of_nat by auto. replace (128 + i <? 128) with false by lia. replace (128 + i - 128) with i by lia. rewrite E. reflexivity. Qed.
Lemma looks_more s s' f : nat_of_ascii f < 128 + length (w_defs s) -> (exists r, w_defs s' = w_defs s ++ r) -> looks s' f = looks s f.
Proof.
  intros H (r & E). unfold looks, get_face_output. destruct (nat_of_ascii f <? 128) eqn:L; [reflexivity|]. rewrite E. rewrite nth_error_app1 by lia. reflexivity.
Qed.
Lemma looks_space s f : nat_of_ascii f < 128 + length (w_defs s) -> (looks s f = Face SPC <-> f = SPC).
Proof.
  intro H. split.
  - unfold looks, get_face_output. destruct (nat_of_ascii f <? 128) eqn:L.
    + intro E. injection E as E. exact E.
    + destruct (nth_error (w_defs s) (nat_of_ascii f - 128)) eqn:E; [discriminate|]. apply nth_error_None in E. lia.
  - intros ->. reflexivity.
Qed.

(** ** One step *)
(** What [apply_face] does to the look of the line; [n] positions. *)
Definition layer (s : wc) (words : bool) : option bytes := if words then w_words s else w_faces s.
Definition at_pos (s : wc) (words : bool) (p : nat) : byte := match layer s words with Some l => nth p l NUL | None => NUL end.
Lemma apply_face_step s (words : bool) st ln f ow : inv s -> f <> NUL -> nat_of_ascii f < 128 + (if words then 0 else length (w_defs s)) ->
  let s' := apply_face s words st ln f ow in
  inv s' /\ w_defs s' = w_defs s /\ w_len s' = w_len s /\ w_arg s' = w_arg s /\
  forall p, p < w_len s -> at_pos s' (negb words) p = at_pos s (negb words) p /\
    at_pos s' words p = if N.leb st (N.of_nat p) && N.ltb (N.of_nat p) (st + ln) then put (at_pos s words p) f ow else at_pos s words p.
Proof.
  intros (I2 & I3 & I4) F1 F2. cbv zeta. unfold arrays_ok in I4.
  assert (X : forall s', w_defs s' = w_defs s -> w_map s' = w_map s -> arrays_ok s' -> inv s').
  { intros s' B C D. split; [rewrite B; exact I2|]. split; [rewrite B, C; exact I3|exact D]. }
  destruct (w_faces s) as [fa|] eqn:EF; destruct (w_words s) as [wo|] eqn:EW; try contradiction.
  - destruct I4 as (P & L1 & L2 & B1 & B2). destruct words.
    + destruct (apply_faces_ok 0 (w_len s) wo st ln f ow L2 B2 (conj F1 F2)) as (l' & A & C & D & E).
      split; [apply X; try reflexivity; unfold arrays_ok, apply_face; cbn [w_faces w_words w_len w_defs]; rewrite EF, EW, A; auto|].
      split; [reflexivity|]. split; [reflexivity|]. split; [reflexivity|]. intros p Hp. unfold at_pos, layer, apply_face. cbn [negb w_faces w_words].
      rewrite EW, A. split; [reflexivity|apply E; exact Hp].
    + destruct (apply_faces_ok (length (w_defs s)) (w_len s) fa st ln f ow L1 B1 (conj F1 F2)) as (l' & A & C & D & E).
      split; [apply X; try reflexivity; unfold arrays_ok, apply_face; cbn [w_faces w_words w_len w_defs]; rewrite EF, EW, A; auto|].
      split; [reflexivity|]. split; [reflexivity|]. split; [reflexivity|]. intros p Hp. unfold at_pos, layer, apply_face. cbn [negb w_faces w_words].
      rewrite EF, A. split; [reflexivity|apply E; exact Hp].
  - split; [|split; [destruct words; reflexivity|split; [destruct words; reflexivity|split; [destruct words; reflexivity|intros p Hp; lia]]]].
    apply X; try (destruct words; reflexivity). unfold arrays_ok, apply_face. destruct words; cbn [w_faces w_words w_len]; rewrite EF, EW; exact I4.
Qed.

(** ensure_face *)
Lemma ensure_ok s code : inv s -> code <> [] ->
  exists s' f, ensure_face s code = Some (s', f) /\ inv s' /\ w_len s' = w_len s /\ w_arg s' = w_arg s /\ w_faces s' = w_faces s /\ w_words s' = w_words s /\
    ((exists i d, f = face_of i /\ i < face_max /\ nth_error (w_defs s') i = Some d /\ alike d code /\
        (w_defs s' = w_defs s \/ d = code /\ (forall e, In e (w_defs s) -> ~ alike e code) /\ w_defs s' = w_defs s ++ [code])) \/
     (f = NUL /\ s' = s /\ length (w_defs s) = face_max /\ forall e, In e (w_defs s) -> ~ alike e code)).
Proof.
  intros I NE. pose proof I as (I2 & I3 & I4). unfold ensure_face. rewrite I3. pose proof (find_faces (w_defs s) 0 code) as X.
  destruct (map_find code (faces_from 0 (w_defs s))) as [f|].
  - destruct X as (j & d & A & B & C). exists s, f. split; [reflexivity|]. split; [exact I|]. do 4 (split; [reflexivity|]). left. exists j, d.
    split; [exact C|]. split; [destruct I2 as (_ & I2 & _); assert (nth_error (w_defs s) j <> None) as Q by congruence; apply nth_error_Some in Q; lia|].
    split; [exact A|]. split; [exact B|]. left. reflexivity.
  - destruct (Nat.leb_spec face_max (length (w_defs s))) as [L|L].
    + exists s, NUL. split; [reflexivity|]. split; [exact I|]. do 4 (split; [reflexivity|]). right. split; [reflexivity|]. split; [reflexivity|].
      split; [destruct I2 as (_ & I2 & _); lia|exact X].
    + rewrite (add_def_ok _ _ I2 X). eexists _, _. split; [reflexivity|]. cbn [w_len w_arg w_faces w_words w_defs]. split.
      * unfold inv. cbn [w_defs w_map]. split.
        { destruct I2 as (A & B & C). split; [apply Forall_app; split; [exact A|apply Forall_cons; [exact NE|apply Forall_nil]]|].
          split; [rewrite app_length; cbn [length]; lia|]. apply unlike_snoc; auto. }
        split; [reflexivity|]. unfold arrays_ok in *. cbn [w_faces w_words w_len w_defs]. destruct (w_faces s), (w_words s); auto.
        destruct I4 as (P & L1 & L2 & B1 & B2). split; [exact P|]. split; [exact L1|]. split; [exact L2|]. split; [|exact B2].
        eapply bytes_weaken; [|exact B1]. rewrite app_length. lia.
      * do 4 (split; [reflexivity|]). left. exists (length (w_defs s)), code. split; [reflexivity|]. split; [exact L|].
        split; [rewrite nth_error_app2 by lia; rewrite Nat.sub_diag; reflexivity|]. split; [reflexivity|]. right. split; [reflexivity|]. split; [exact X|reflexivity].
Qed.
