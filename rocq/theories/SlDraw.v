(** C109: the suggestion list only draws the rows that changed, and yet the screen shows the whole list. *)
From Verif Require Import Base SlModel SlProperties.
Open Scope Z_scope.

Section Draw.
Variable tips : Z -> bool.
Definition code (c : cell) : Z := match c with Item i _ => i | _ => -1 end.
(** the rows from suggestion [i] on *)
Fixpoint from (index i : Z) (n : nat) : list cell :=
  match n with O => [] | S n' => Item i (i =? index) :: (if (i =? index) && tips i then [Tip i] else []) ++ from index (i + 1) n' end.
Lemma shown_from : forall index t n, rows_shown tips index t n = from index t n.
Proof.
  intros index t n. unfold rows_shown. assert (K : forall n k, flat_map (fun k => let i := t + Z.of_nat k in Item i (i =? index) :: (if (i =? index) && tips i then [Tip i] else [])) (seq k n) = from index (t + Z.of_nat k) n).
  { clear n. induction n as [|n IH]; intros k; [reflexivity|]. cbn [seq flat_map from]. cbv zeta. cbn [app]. do 2 f_equal. rewrite IH. f_equal. lia. }
  rewrite K. f_equal. lia.
Qed.
Lemma put_before : forall {A} (l : list A) n x, (n <= length l)%nat -> firstn n (put l n x) = firstn n l.
Proof. intros A l n x L. unfold put. rewrite firstn_app, firstn_length, firstn_firstn. replace (n - Nat.min n (length l))%nat with 0%nat by lia. rewrite firstn_O, app_nil_r. f_equal. lia. Qed.
Lemma put_upto : forall {A} (l : list A) n x, (n <= length l)%nat -> firstn (S n) (put l n x) = firstn n l ++ [x].
Proof.
  intros A l n x L. unfold put. rewrite firstn_app, firstn_length, firstn_firstn. replace (S n - Nat.min n (length l))%nat with 1%nat by lia.
  replace (Nat.min (S n) n) with n by lia. reflexivity.
Qed.
Lemma put_after : forall {A} (l : list A) n x p, (n <= length l)%nat -> (n < p)%nat -> nth_error (put l n x) p = nth_error l p.
Proof.
  intros A l n x p L P. unfold put. rewrite nth_error_app2; rewrite firstn_length_le by lia; [|lia].
  destruct (p - n)%nat as [|q] eqn:E; [lia|]. cbn [nth_error]. 
  destruct (Nat.le_gt_cases (length l) p) as [B | B].
  - rewrite (proj2 (nth_error_None l p)) by lia. apply nth_error_None. rewrite skipn_length. lia.
  - rewrite <- (firstn_skipn (S n) l) at 2. rewrite nth_error_app2; rewrite firstn_length_le by lia; [f_equal; lia | lia].
Qed.
Lemma put_length : forall {A} (l : list A) n x, (n <= length l)%nat -> length (put l n x) = Nat.max (length l) (S n).
Proof. intros A l n x L. unfold put. rewrite app_length. cbn [length]. rewrite firstn_length_le, skipn_length by lia. lia. Qed.
Lemma firstn_S_nth : forall {A} (l : list A) n x, nth_error l n = Some x -> firstn (S n) l = firstn n l ++ [x].
Proof. induction l as [|a l IH]; intros [|n] x H; try discriminate; cbn [nth_error] in H; [injection H as ->; reflexivity|]. cbn [firstn app]. f_equal. apply IH, H. Qed.

(** what is known of the rows from [n] on: what m_any_displayed says is there, is; and the marked ones are those of m_prev_displayed *)
Definition known (d : dr) (n : nat) : Prop :=
  length (any d) = length (scr d) /\ (n <= length (scr d))%nat /\
  (0 <= dprev d -> forall p c, (n <= p)%nat -> nth_error (scr d) p = Some c -> nth_error (any d) p = Some (code c) /\ forall i b, c = Item i b -> b = (i =? dprev d)).
Lemma known_put : forall d n c q tp, known d n -> (dprev d = q \/ q < 0) -> known (mkD (put (scr d) n c) (put (any d) n (code c)) q tp) (S n).
Proof.
  intros d n c q tp (K1 & K2 & K3) Q. unfold known. cbn [scr any dprev]. rewrite !put_length by lia. split; [lia|]. split; [lia|].
  intros P p c' B H. destruct Q as [Q | Q]; [|lia]. rewrite put_after in H by lia. rewrite put_after by lia. rewrite <- Q in *. apply K3; [assumption | lia | assumption].
Qed.
Lemma nth_nth_error : forall (l : list Z) n x, nth_error l n = Some x -> nth n l 0 = x.
Proof. induction l as [|a l IH]; intros [|n] x H; try discriminate; cbn [nth_error] in H; [injection H as ->; reflexivity | apply IH, H]. Qed.

Lemma rows_right : forall index t was left row n d last d' n' last', known d n -> 0 <= t + row ->
  rows tips index t was left row n d last = (d', n', last') ->
  firstn n' (scr d') = firstn n (scr d) ++ from index (t + row) left /\ firstn n' (any d') = firstn n (any d) ++ map code (from index (t + row) left)
  /\ n' = (n + length (from index (t + row) left))%nat /\ length (scr d') = Nat.max (length (scr d)) n' /\ length (any d') = length (scr d')
  /\ tip d' = (if (t + row <=? index) && (index <? t + row + Z.of_nat left) && tips index then index else tip d).
Proof.
  intros index t was. induction left as [|left IH]; intros row n d last d' n' last' K R E.
  - cbn [rows] in E. injection E as <- <- _. cbn [from map length]. rewrite !app_nil_r. destruct K as (K1 & K2 & K3).
    assert (F : (t + row <=? index) && (index <? t + row + Z.of_nat 0) = false) by lia. rewrite F. cbn [andb]. repeat (split; [reflexivity || lia|]). reflexivity.
  - cbn [rows] in E. cbv zeta in E. set (i := t + row) in *. pose proof K as (K1 & K2 & K3).
    cbn [from].
    destruct ((dprev d <? 0) || (i =? index) || (i =? dprev d) || (length (any d) <=? n)%nat || negb (nth n (any d) 0 =? i)) eqn:C.
    + destruct (i =? index) eqn:SEL.
      * assert (I0 : i = index) by lia. destruct (tips i) eqn:TI; cbn [andb].
        -- cbn [scr any dprev tip] in E.
           pose proof (known_put d n (Item i true) (dprev d) (tip d) K (or_introl eq_refl)) as Ka. cbn [code] in Ka.
           pose proof (known_put _ (S n) (Tip i) (if was <? 0 then -1 else dprev d) index Ka ltac:(cbn [dprev]; destruct (was <? 0); lia)) as Kb. cbn [code scr any dprev tip] in Kb.
           apply IH in E; [|exact Kb | lia]. destruct E as (E1 & E2 & E3 & E4 & E5 & E6). cbn [scr any tip] in *.
           rewrite !put_upto in E1 by (rewrite put_length by lia; lia). rewrite put_upto in E1 by lia.
           rewrite !put_upto in E2 by (rewrite put_length by lia; lia). rewrite put_upto in E2 by lia.
           replace (t + (row + 1)) with (i + 1) in * by (unfold i; lia).
           rewrite <- !app_assoc in E1, E2. cbn [app] in E1, E2. cbn [app map code length].
           split; [exact E1|]. split; [exact E2|]. split; [cbn [length]; lia|]. split; [rewrite !put_length in E4 by (rewrite ?put_length by lia; lia); lia|]. split; [exact E5|].
           assert (F : (i <=? index) && (index <? i + Z.of_nat (S left)) = true) by lia. rewrite F. cbn [andb]. rewrite <- I0, TI. rewrite E6.
           assert (F2 : (i + 1 <=? index) = false) by lia. rewrite F2. cbn [andb]. lia.
        -- cbn [scr any dprev tip] in E.
           pose proof (known_put d n (Item i true) (if 0 <=? was then -1 else dprev d) (tip d) K ltac:(destruct (0 <=? was); lia)) as Ka. cbn [code] in Ka.
           apply IH in E; [|exact Ka | lia]. destruct E as (E1 & E2 & E3 & E4 & E5 & E6). cbn [scr any tip] in *.
           rewrite put_upto in E1 by lia. rewrite put_upto in E2 by lia.
           replace (t + (row + 1)) with (i + 1) in * by (unfold i; lia).
           rewrite <- !app_assoc in E1, E2. cbn [app] in E1, E2. cbn [app map code length].
           split; [exact E1|]. split; [exact E2|]. split; [lia|]. split; [rewrite !put_length in E4 by lia; lia|]. split; [exact E5|].
           rewrite E6. rewrite <- I0, TI. rewrite !andb_false_r. reflexivity.
      * pose proof (known_put d n (Item i false) (dprev d) (tip d) K (or_introl eq_refl)) as Ka. cbn [code] in Ka. cbn [andb].
        apply IH in E; [|exact Ka | lia]. destruct E as (E1 & E2 & E3 & E4 & E5 & E6). cbn [scr any tip] in *.
        rewrite put_upto in E1 by lia. rewrite put_upto in E2 by lia.
        replace (t + (row + 1)) with (i + 1) in * by (unfold i; lia).
        rewrite <- !app_assoc in E1, E2. cbn [app] in E1, E2. cbn [app map code length].
        split; [exact E1|]. split; [exact E2|]. split; [lia|]. split; [rewrite !put_length in E4 by lia; lia|]. split; [exact E5|].
        rewrite E6. assert (F : (i + 1 <=? index) && (index <? i + 1 + Z.of_nat left) = (i <=? index) && (index <? i + Z.of_nat (S left))) by lia. rewrite F. reflexivity.
    + apply orb_false_elim in C. destruct C as [C C5]. apply orb_false_elim in C. destruct C as [C C4]. apply orb_false_elim in C. destruct C as [C C3].
      apply orb_false_elim in C. destruct C as [C1 C2]. rewrite C2. cbn [andb].
      destruct (nth_error (scr d) n) as [c|] eqn:SC; [|apply nth_error_None in SC; lia].
      destruct (K3 ltac:(lia) n c (Nat.le_refl n) SC) as [AN MK].
      assert (CI : code c = i) by (rewrite (nth_nth_error _ _ _ AN) in C5; lia).
      assert (CC : c = Item i false).
      { destruct c as [j b | j |]; cbn [code] in CI; [|exfalso; lia | exfalso; lia]. rewrite CI in *. f_equal. rewrite (MK i b eq_refl). lia. }
      assert (LN : (n < length (scr d))%nat) by (apply nth_error_Some; rewrite SC; discriminate).
      assert (Ka : known d (S n)).
      { split; [lia|]. split; [lia|]. intros P p c' B H. apply K3; [assumption | lia | assumption]. }
      apply IH in E; [|exact Ka | lia]. destruct E as (E1 & E2 & E3 & E4 & E5 & E6).
      rewrite (firstn_S_nth _ _ _ SC), CC in E1. rewrite (firstn_S_nth _ _ _ AN), CI in E2.
      replace (t + (row + 1)) with (i + 1) in * by (unfold i; lia).
      rewrite <- !app_assoc in E1, E2. cbn [app] in E1, E2. cbn [app map code length].
      split; [exact E1|]. split; [exact E2|]. split; [lia|]. split; [lia|]. split; [exact E5|].
      rewrite E6. assert (F : (i + 1 <=? index) && (index <? i + 1 + Z.of_nat left) = (i <=? index) && (index <? i + Z.of_nat (S left))) by lia. rewrite F. reflexivity.
Qed.

(** is the last row drawn? *)
Lemma last_all : forall index t was left row n d last, dprev d < 0 -> (left <> 0%nat \/ last = true) -> snd (rows tips index t was left row n d last) = true.
Proof.
  intros index t was. induction left as [|left IH]; intros row n d last P L; [destruct L as [L | L]; [congruence | exact L]|].
  cbn [rows]. cbv zeta. assert (E : (dprev d <? 0) = true) by lia. rewrite E. cbn [orb].
  destruct (t + row =? index).
  - destruct (tips (t + row)); apply IH; cbn [dprev]; try (right; reflexivity); destruct (was <? 0), (0 <=? was); lia.
  - apply IH; [exact P | right; reflexivity].
Qed.
Lemma last_untipped : forall index t was left row n d last, 0 <= was -> tips index = false -> t + row <= index < t + row + Z.of_nat left ->
  snd (rows tips index t was left row n d last) = true.
Proof.
  intros index t was. induction left as [|left IH]; intros row n d last W T X; [lia|].
  cbn [rows]. cbv zeta. destruct (t + row =? index) eqn:SEL.
  - rewrite orb_true_r. cbn [orb]. assert (I0 : t + row = index) by lia. rewrite I0, T. assert (W2 : (0 <=? was) = true) by lia. rewrite W2.
    apply last_all; [cbn [dprev]; lia | right; reflexivity].
  - destruct (_ || _ || _ || _ || _); apply IH; lia || assumption.
Qed.
(** nothing is selected any more, and what was displayed from the formerly selected row [k] on is one row off *)
Lemma last_off : forall index t was k left row n d last, index < t + row -> (t + row <= k -> dprev d = k) ->
  (forall p, (n <= p)%nat -> k < t + row + Z.of_nat (p - n) -> (length (any d) <= p)%nat \/ nth p (any d) 0 <> t + row + Z.of_nat (p - n)) ->
  (left <> 0%nat \/ last = true) -> k < t + row + Z.of_nat left -> (n <= length (any d))%nat -> snd (rows tips index t was left row n d last) = true.
Proof.
  intros index t was k. induction left as [|left IH]; intros row n d last X P A L B LN; [destruct L as [L | L]; [congruence | exact L]|].
  cbn [rows]. cbv zeta. assert (E : (t + row =? index) = false) by lia. rewrite E.
  destruct ((dprev d <? 0) || false || (t + row =? dprev d) || (length (any d) <=? n)%nat || negb (nth n (any d) 0 =? t + row)) eqn:C.
  - apply IH.
    + lia.
    + cbn [dprev]. intros Q. apply P. lia.
    + cbn [any]. intros p Q1 Q2. assert (LP : length (put (any d) n (t + row)) = Nat.max (length (any d)) (S n)) by (apply put_length; assumption).
      assert (NT : (length (any d) <= p)%nat \/ nth p (put (any d) n (t + row)) 0 = nth p (any d) 0).
      { destruct (Nat.le_gt_cases (length (any d)) p) as [G | G]; [left; assumption | right].
        destruct (nth_error (any d) p) as [x|] eqn:N1; [|apply nth_error_None in N1; lia].
        rewrite (nth_nth_error _ _ _ N1). apply nth_nth_error. rewrite put_after by lia. exact N1. }
      destruct (A p ltac:(lia) ltac:(lia)) as [G | G]; [left; lia|]. destruct NT as [NT | NT]; [left; lia | right; rewrite NT; lia].
    + right. reflexivity.
    + lia.
    + cbn [any]. rewrite put_length by assumption. lia.
  - (* not drawn: it is above the formerly selected one *)
    assert (K : t + row < k).
    { destruct (Z_lt_le_dec (t + row) k) as [G | G]; [exact G | exfalso].
      destruct (Z.eq_dec (t + row) k) as [G2 | G2].
      - assert (dprev d = k) by (apply P; lia). assert (Q : (t + row =? dprev d) = true) by lia. rewrite Q in C. rewrite orb_true_r in C. discriminate.
      - destruct (A n ltac:(lia) ltac:(lia)) as [Q | Q].
        + assert (Q' : (length (any d) <=? n)%nat = true) by lia. rewrite Q' in C. rewrite orb_true_r in C. discriminate.
        + assert (Q' : (nth n (any d) 0 =? t + row) = false) by lia. rewrite Q' in C. rewrite orb_true_r in C. discriminate. }
    apply IH; [lia | intros Q; apply P; lia | | lia | lia |].
    + intros p Q1 Q2. destruct (A p ltac:(lia) ltac:(lia)) as [G | G]; [left; lia | right; lia].
    + apply orb_false_elim in C. destruct C as [C C5]. apply orb_false_elim in C. destruct C as [C C4]. lia.
Qed.

(** ** C109 *)
(** one drawing: m_clear_display, and m_index, m_top and the number of rows at the time *)
Record frame := mkF { f_clear : bool; f_index : Z; f_top : Z; f_rows : nat }.
Definition frame_ok (f : frame) : Prop := 0 <= f_top f /\ (1 <= f_rows f)%nat /\ (f_index f = -1 \/ f_top f <= f_index f < f_top f + Z.of_nat (f_rows f)).
(** set_top (1369-1381) before the drawing forgets what was displayed if m_top changes; m_clear_display is set with another list of suggestions
    (init_suggestions, remove_history_index), and then what is on the screen is of the list before *)
Definition step (o : option frame * dr) (f : frame) : option frame * dr :=
  let d := snd o in
  let d := match fst o with Some g => if f_top f =? f_top g then d else mkD (scr d) (any d) (-1) (tip d) | None => d end in
  let d := if f_clear f then mkD (map (fun _ => Old) (scr d)) (any d) (dprev d) (tip d) else d in
  (Some f, draw tips (f_clear f) (f_index f) (f_top f) (f_rows f) d).
(** the drawings of a list: each is right in itself, and the number of rows only changes with m_clear_display *)
Fixpoint drawings (before : option frame) (l : list frame) : Prop :=
  match l with
  | [] => True
  | f :: l' => frame_ok f /\ match before with Some g => f_clear f = true \/ f_rows f = f_rows g | None => True end /\ drawings (Some f) l'
  end.
Definition shows (f : frame) (d : dr) : Prop :=
  scr d = from (f_index f) (f_top f) (f_rows f) /\ any d = map code (scr d) /\ dprev d = f_index f /\
  tip d = (if (f_top f <=? f_index f) && (f_index f <? f_top f + Z.of_nat (f_rows f)) && tips (f_index f) then f_index f else -1).

Lemma from_nth : forall index n i p c, nth_error (from index i n) p = Some c ->
  (forall j b, c = Item j b -> b = (j =? index)) /\
  (index = -1 \/ 0 <= i <= index -> i <= index -> tips index = true -> i + Z.of_nat p > index -> code c <> i + Z.of_nat p).
Proof.
  intros index. induction n as [|n IH]; intros i p c H; [destruct p; discriminate|]. cbn [from] in H.
  destruct p as [|p]; cbn [nth_error] in H.
  - injection H as <-. split; [intros j b E; injection E as <- <-; reflexivity|]. intros; lia.
  - destruct (i =? index) eqn:SEL.
    + assert (I0 : i = index) by lia. destruct (tips i) eqn:TI; cbn [andb app] in H.
      * destruct p as [|p]; cbn [nth_error] in H.
        -- injection H as <-. split; [intros j b E; discriminate | intros; cbn [code]; lia].
        -- split; [apply (IH _ _ _ H)|]. intros A B C D.
           assert (K : forall n i p c, index < i -> nth_error (from index i n) p = Some c -> code c = i + Z.of_nat p).
           { clear. induction n as [|n IH]; intros i p c L H; [destruct p; discriminate|]. cbn [from] in H. destruct p as [|p]; cbn [nth_error] in H; [injection H as <-; cbn [code]; lia|].
             assert (E : (i =? index) = false) by lia. rewrite E in H. cbn [andb app] in H. apply IH in H; [rewrite H; lia | lia]. }
           apply K in H; [rewrite H; lia | lia].
      * split; [apply (IH _ _ _ H)|]. intros A B C D. congruence.
    + cbn [andb app] in H. destruct (IH _ _ _ H) as [J1 J2]. split; [exact J1|]. intros A B C D. 
      replace (i + Z.of_nat (S p)) with (i + 1 + Z.of_nat p) by lia. apply J2; [lia | lia | assumption | lia].
Qed.
Lemma from_length : forall index n i, length (from index i n) = (n + (if ((i <=? index)%Z && (index <? i + Z.of_nat n)%Z && tips index)%bool then 1 else 0))%nat.
Proof.
  intros index. induction n as [|n IH]; intros i; cbn [from].
  - assert (E : (i <=? index) && (index <? i + Z.of_nat 0) = false) by lia. rewrite E. reflexivity.
  - cbn [length]. rewrite app_length, IH. destruct (i =? index) eqn:SEL.
    + assert (I0 : i = index) by lia. rewrite I0. assert (E : (index + 1 <=? index) = false) by lia. rewrite E. cbn [andb].
      assert (E2 : (index <=? index) && (index <? index + Z.of_nat (S n)) = true) by lia. rewrite E2. cbn [andb]. destruct (tips index); cbn [length]; lia.
    + cbn [andb length]. assert (E : (i + 1 <=? index) && (index <? i + 1 + Z.of_nat n) = (i <=? index) && (index <? i + Z.of_nat (S n))) by lia. rewrite E. lia.
Qed.

Lemma draw_ok : forall f d, frame_ok f ->
  (f_clear f = true /\ length (any d) = length (scr d) \/ dprev d < 0 /\ known d 0 /\ (length (scr d) <= f_rows f + (if (0 <=? tip d)%Z then 1 else 0))%nat \/
   exists g, frame_ok g /\ f_top g = f_top f /\ f_rows g = f_rows f /\ shows g d) ->
  shows f (draw tips (f_clear f) (f_index f) (f_top f) (f_rows f) d).
Proof.
  intros [cl index t n] d (O1 & O2 & O3) C. cbn [f_clear f_index f_top f_rows] in *.
  assert (KN : cl = true /\ length (any d) = length (scr d) \/ known d 0).
  { destruct C as [C | [[_ [C _]] | [g (G1 & G2 & G3 & G4)]]]; [left; exact C | right; exact C|]. right.
    destruct G4 as (H1 & H2 & H3 & H4). split; [rewrite H2, map_length; reflexivity|]. split; [lia|].
    intros P p c B H. split; [rewrite H2; rewrite nth_error_map, H; reflexivity|]. intros i b E. rewrite H3. rewrite H1 in H. exact (proj1 (from_nth _ _ _ _ _ H) i b E). }
  unfold draw.
  set (d0 := if cl then mkD (scr d) (any d) (-1) (-1) else d).
  assert (K0 : known (mkD (scr d0) (any d0) (dprev d0) (-1)) 0).
  { destruct KN as [[CL K1] | (K1 & K2 & K3)]; [unfold d0; rewrite CL; split; [exact K1 | split; [cbn [scr]; lia | cbn [dprev]; lia]]|]. unfold d0. destruct cl; (split; [exact K1 | split; [exact K2|]]); cbn [scr any dprev]; [lia | exact K3]. }
  destruct (rows tips index t (tip d0) n 0 0 (mkD (scr d0) (any d0) (dprev d0) (-1)) false) as [[d' n'] last'] eqn:E.
  pose proof (f_equal snd E) as LA. cbn [snd] in LA.
  apply rows_right in E; [|exact K0 | lia]. cbn [scr any tip firstn app] in E. replace (t + 0) with t in E by lia.
  destruct E as (E1 & E2 & E3 & E4 & E5 & E6).
  assert (SC : scr d0 = scr d) by (unfold d0; destruct cl; reflexivity). rewrite SC in E4.
  unfold shows. cbn [scr any dprev tip f_index f_top f_rows].
  assert (FINAL : (if cl || ((0 <=? tip d0) && (tip d' <? 0)) then firstn (if last' then n' else (n' - 1)%nat) (scr d') else scr d') = from index t n).
  { destruct (cl || ((0 <=? tip d0) && (tip d' <? 0))) eqn:ER.
    - assert (LL : last' = true).
      { rewrite <- LA. apply orb_prop in ER. destruct (Z_lt_le_dec (dprev d0) 0) as [DP | DP]; [apply last_all; [exact DP | left; lia]|].
        destruct ER as [-> | ER]; [unfold d0 in DP; cbn [dprev] in DP; lia|].
        assert (CF : cl = false) by (destruct cl; [unfold d0 in DP; cbn [dprev] in DP; lia | reflexivity]). unfold d0 in *. rewrite CF in *.
        destruct C as [[C _] | [[C _] | [g (G1 & G2 & G3 & G4)]]]; [discriminate | lia|].
        destruct O3 as [O3 | O3].
        + destruct G4 as (H1 & H2 & H3 & H4). destruct G1 as (Q1 & Q2 & Q3).
          assert (TG : tips (f_index g) = true /\ f_top g <= f_index g < f_top g + Z.of_nat (f_rows g)).
          { destruct ((f_top g <=? f_index g) && (f_index g <? f_top g + Z.of_nat (f_rows g)) && tips (f_index g)) eqn:Y; [|lia].
            destruct (tips (f_index g)); [split; [reflexivity | lia] | rewrite andb_false_r in Y; discriminate]. }
          apply (last_off index t (tip d) (f_index g)).
          * lia.
          * intros _. exact H3.
          * intros p B1 B2. cbn [any]. destruct (Nat.le_gt_cases (length (any d)) p) as [Y | Y]; [left; exact Y | right].
            destruct (nth_error (scr d) p) as [c|] eqn:NE; [|apply nth_error_None in NE; rewrite H2, map_length in Y; lia].
            assert (AN : nth_error (any d) p = Some (code c)) by (rewrite H2, nth_error_map, NE; reflexivity). rewrite (nth_nth_error _ _ _ AN).
            rewrite H1 in NE. destruct (from_nth _ _ _ _ _ NE) as [_ W]. replace (t + 0 + Z.of_nat (p - 0)) with (f_top g + Z.of_nat p) by lia.
            apply W; [lia | lia | apply TG | lia].
          * left. lia.
          * lia.
          * cbn [any length]. lia.
        + apply last_untipped; [lia | | lia].
          destruct ((t <=? index) && (index <? t + Z.of_nat n) && tips index) eqn:Y; [lia|]. destruct (tips index); [lia | reflexivity]. }
      rewrite LL. exact E1.
    - apply orb_false_elim in ER. destruct ER as [-> ER]. unfold d0 in *.
      assert (LE : (length (scr d) <= n')%nat).
      { rewrite E3, from_length. destruct C as [[C _] | [[_ [_ C]] | [g (G1 & G2 & G3 & (H1 & H2 & H3 & H4))]]]; [discriminate | |].
        - destruct ((t <=? index) && (index <? t + Z.of_nat n) && tips index) eqn:Y; destruct (0 <=? tip d) eqn:Z0; lia.
        - rewrite H1, from_length, <- G3, G2. rewrite G2 in H4. destruct ((t <=? f_index g) && (f_index g <? t + Z.of_nat (f_rows g)) && tips (f_index g)) eqn:X; [|lia].
          rewrite G3. destruct ((t <=? index) && (index <? t + Z.of_nat n) && tips index) eqn:Y; [lia|]. rewrite E6, H4 in ER.
          assert (0 <= f_index g) by (destruct (tips (f_index g)); lia). lia. }
      rewrite <- E1. symmetry. apply firstn_all2. lia. }
  split; [exact FINAL|]. split; [rewrite FINAL; exact E2|]. split; [reflexivity | exact E6].
Qed.
Theorem shows_whole_list : forall l f, drawings None (l ++ [f]) ->
  scr (snd (fold_left step (l ++ [f]) (None, mkD [] [] (-1) (-1)))) = rows_shown tips (f_index f) (f_top f) (f_rows f).
Proof.
  intros l f D. rewrite shown_from.
  assert (K : forall l o d, match o with Some g => frame_ok g /\ shows g d | None => d = mkD [] [] (-1) (-1) end -> drawings o (l ++ [f]) ->
    shows f (snd (fold_left step (l ++ [f]) (o, d)))).
  { assert (ONE : forall o d h, match o with Some g => frame_ok g /\ shows g d | None => d = mkD [] [] (-1) (-1) end -> frame_ok h ->
      match o with Some g => f_clear h = true \/ f_rows h = f_rows g | None => True end -> shows h (snd (step (o, d) h))).
    { intros o d h B OK R. unfold step. cbn [fst snd]. cbv zeta. destruct (f_clear h) eqn:CL.
      - (* cleared *)
        rewrite <- CL. apply draw_ok; [exact OK|]. left. split; [exact CL|]. cbn [scr any]. rewrite map_length.
        destruct o as [g|]; [|subst d; reflexivity]. destruct B as [_ (H1 & H2 & H3 & H4)].
        destruct (f_top h =? f_top g); cbn [scr any]; rewrite H2, map_length; reflexivity.
      - rewrite <- CL. destruct o as [g|].
        + destruct B as [B1 B2]. destruct R as [R | R]; [congruence|]. destruct (f_top h =? f_top g) eqn:TT.
          * apply draw_ok; [exact OK|]. right. right. exists g. split; [exact B1|]. split; [lia|]. split; [lia | exact B2].
          * destruct B2 as (H1 & H2 & H3 & H4). apply draw_ok; [exact OK|].
            assert (KN : known (mkD (scr d) (any d) (-1) (tip d)) 0) by (split; [cbn [any scr]; rewrite H2, map_length; reflexivity | split; [lia | cbn [dprev]; lia]]).
            right. left. split; [cbn [dprev]; lia|]. split; [exact KN|]. cbn [scr tip].
            rewrite H1, from_length, R, H4. destruct ((f_top g <=? f_index g) && (f_index g <? f_top g + Z.of_nat (f_rows g)) && tips (f_index g)) eqn:X; [|lia].
            destruct B1 as (Q1 & Q2 & Q3). assert (Y : (0 <=? f_index g) = true) by (destruct (tips (f_index g)); lia). rewrite Y. lia.
        + subst d. apply draw_ok; [exact OK|]. right. left. split; [cbn; lia|]. split; [split; [reflexivity | split; [cbn; lia | cbn [dprev]; lia]] | cbn; lia]. }
    clear l D. induction l as [|h l IH]; intros o d B D.
    - cbn [app fold_left drawings] in *. destruct D as (D1 & D2 & _). apply ONE; assumption.
    - cbn [app fold_left drawings] in *. destruct D as (D1 & D2 & D3). assert (H : step (o, d) h = (Some h, snd (step (o, d) h))) by reflexivity.
      rewrite H. apply IH; [|exact D3]. split; [exact D1 | apply ONE; assumption]. }
  exact (proj1 (K l None _ eq_refl D)).
Qed.
End Draw.

Example sd_frames : list frame := [mkF false (-1) 0 3; mkF false 1 0 3; mkF false 2 0 3; mkF false 3 1 3; mkF false (-1) 0 3; mkF true 1 0 2].
Example sd_ok : drawings None (sd_frames ++ [mkF false 0 0 2]). Proof. cbn. unfold frame_ok. cbn. intuition lia. Qed.
Example sd_screen : scr (snd (fold_left (step (fun i => (i =? 1) || (i =? 2))) (firstn 3 sd_frames) (None, mkD [] [] (-1) (-1)))) = [Item 0 false; Item 1 false; Item 2 true; Tip 2].
Proof. reflexivity. Qed.
Print Assumptions shows_whole_list.
