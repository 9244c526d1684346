(** C93, C94: codes in the prompt; how many directories were pushed. *)
From Verif Require Import Base PcModel PcSpec PcProofs.
From Coq Require Import Ascii String.
Open Scope N_scope.
Open Scope list_scope.
Notation length := List.length.

(** C93: every prompt is made of characters and codes, and maybe a $ at its end that means nothing; what is shown is what the codes mean.  $H takes away the character before it *)
Theorem prompt_tokens_exist : forall l, exists b, Forall good_token b /\ (l = prompt_text b \/ l = prompt_text b ++ [36]).
Proof. exact tokens_exist. Qed.
Theorem prompt_shown : forall sys b tail, Forall good_token b -> b <> [] -> tail = [] \/ tail = [36] -> expand_codes sys (mkF false false) (prompt_text b ++ tail) = Some (shown sys b).
Proof.
  intros sys b tail Hg Hb Ht. rewrite expand_codes_eq by (pose proof (text_nonempty b Hb) as X; destruct (prompt_text b); [congruence|discriminate]).
  rewrite (codes_shown sys (mkF false false) eq_refl b []); [|exact Hg|apply forallb_forall; reflexivity|reflexivity]. destruct Ht as [->| ->]; [|rewrite codes_last; reflexivity]. cbn. destruct b; [congruence|reflexivity].
Qed.
(** the prompt on the right: of one line only, up to a newline or $_; without spaces at its end if it ends with $M *)
Lemma first_line_split b : exists r, b = first_line b ++ r /\ (r = [] \/ exists t r', r = t :: r' /\ ends_line t = true) /\ forallb (fun t => negb (ends_line t)) (first_line b) = true.
Proof.
  induction b as [|t b (r & I1 & I2 & I3)]; [exists []; auto|]. cbn [first_line]. destruct (ends_line t) eqn:E.
  - exists (t :: b). split; [reflexivity|]. split; [right; exists t, b; auto|reflexivity].
  - exists r. split; [cbn; f_equal; exact I1|]. split; [exact I2|]. cbn [forallb]. rewrite E, I3. reflexivity.
Qed.
Theorem right_prompt_shown : forall sys b, Forall good_token b -> b <> [] -> exists r, expand_codes sys (mkF true false) (prompt_text b) = Some r /\
  (ends_with_net (first_line b) = false -> r = shown sys (first_line b)) /\
  (ends_with_net (first_line b) = true -> (forall l, b <> first_line b ++ Code 95 :: l) -> no_spaces_at_end (shown sys (first_line b)) r).
Proof.
  intros sys b Hg Hb. rewrite expand_codes_eq by (apply text_nonempty; exact Hb). destruct (first_line_split b) as (r & E & Hr & Hl). set (f := first_line b) in *. clearbody f. subst b.
  unfold prompt_text. rewrite map_app, concat_app. fold (prompt_text f) (prompt_text r). apply Forall_app in Hg. destruct Hg as [G1 G2].
  rewrite (codes_shown sys (mkF true false) eq_refl f [] (mkP [] false 0) G1 Hl eq_refl). cbn [app p_trim p_plus f_single andb]. set (tr := match f with [] => false | _ => ends_with_net f end). assert (T : tr = ends_with_net f) by (unfold tr; destruct f; reflexivity). clearbody tr. subst tr.
  destruct Hr as [->|(t & r' & -> & He)].
  - cbn [prompt_text map List.concat codes p_trim p_out]. eexists. split; [reflexivity|]. destruct (ends_with_net f); (split; [intro X; try discriminate X; reflexivity|intros X _; try discriminate X; apply trim_spec]).
  - change (prompt_text (t :: r')) with (token_text t ++ prompt_text r'). destruct t as [c|c]; cbn [ends_line] in He.
    + cbn [token_text app codes f_single andb]. replace ((c =? 13) || (c =? 10)) with true by (rewrite orb_comm; symmetry; exact He). cbn [p_trim p_out]. eexists. split; [reflexivity|]. destruct (ends_with_net f); (split; [intro X; try discriminate X; reflexivity|intros X _; try discriminate X; apply trim_spec]).
    + apply N.eqb_eq in He. subst c. cbn [token_text app codes f_single andb N.eqb Pos.eqb orb negb p_trim p_out p_plus]. eexists. split; [reflexivity|]. split; [reflexivity|]. intros _ X. exfalso. exact (X r' eq_refl).
Qed.
(** any text can be shown, if it is written with codes *)
Definition quoted_token (c : N) : token := match quoted [c] with [36; k] => Code k | _ => Char c end.
Lemma quoted_ok c : quoted [c] = token_text (quoted_token c) /\ good_token (quoted_token c) /\ erases (quoted_token c) = false /\ is_net (quoted_token c) = false /\ ends_line (quoted_token c) = ((c =? 10) || (c =? 13)) /\ (forall sys, token_value sys (quoted_token c) = [c]).
Proof.
  destruct (existsb (fun x => x =? c) (str "&|()<>=$ ")) eqn:E.
  - change (str "&|()<>=$ ") with [38; 124; 40; 41; 60; 62; 61; 36; 32] in E. cbn [existsb] in E.
    repeat (apply orb_prop in E; destruct E as [E|E]; [apply N.eqb_eq in E; subst c; repeat split; try reflexivity|]). discriminate E.
  - assert (Q : quoted [c] = [c]) by (unfold quoted; cbn [flat_map]; rewrite E; reflexivity).
    change (str "&|()<>=$ ") with [38; 124; 40; 41; 60; 62; 61; 36; 32] in E. cbn [existsb] in E.
    assert (T : quoted_token c = Char c). { unfold quoted_token. rewrite Q. destruct c as [|p]; [reflexivity|]. repeat (match goal with |- context [match ?p with xI _ => _ | xO _ => _ | xH => _ end] => destruct p end; try reflexivity). }
    rewrite Q, T. cbn [token_text good_token erases is_net ends_line token_value]. split; [reflexivity|]. split; [lia|]. repeat split.
Qed.
Theorem prompt_quote_round_trip : forall sys single t, t <> [] -> (single = true -> ~ In 10 t /\ ~ In 13 t) -> expand_codes sys (mkF single false) (quoted t) = Some t.
Proof.
  intros sys single t Ht Hn. set (b := map quoted_token t).
  assert (Q : quoted t = prompt_text b). { unfold b. clear. induction t as [|c t IH]; [reflexivity|]. change (quoted (c :: t)) with ((if existsb (fun x => x =? c) (str "&|()<>=$ ") then 36 :: value (map (fun p => (fst p, str (snd p))) [("&", "A"); ("|", "B"); ("(", "C"); (")", "F"); ("<", "L"); (">", "G"); ("=", "Q"); ("$", "$"); (" ", "S")]%string) c else [c]) ++ quoted t). cbn [map]. change (prompt_text (quoted_token c :: map quoted_token t)) with (token_text (quoted_token c) ++ prompt_text (map quoted_token t)). rewrite <- IH. f_equal. rewrite <- (proj1 (quoted_ok c)). unfold quoted. cbn [flat_map]. rewrite app_nil_r. reflexivity. }
  assert (G : Forall good_token b) by (unfold b; apply Forall_map, Forall_forall; intros c _; apply (quoted_ok c)).
  assert (Er : forallb (fun t => negb (erases t)) b = true). { unfold b. apply forallb_forall. intros x Hx. apply in_map_iff in Hx. destruct Hx as (c & <- & _). destruct (quoted_ok c) as (_ & _ & X & _). rewrite X. reflexivity. }
  assert (Sh : shown sys b = t). { pose proof (shown_app sys [] b Er) as X. cbn [app] in X. rewrite X. change (shown sys []) with (@nil N). cbn [app]. unfold b. clear. induction t as [|c t IH]; [reflexivity|]. cbn [map List.concat]. destruct (quoted_ok c) as (_ & _ & _ & _ & _ & X). rewrite X, IH. reflexivity. }
  assert (El : forallb (fun t => negb (f_single (mkF single false) && ends_line t)) b = true). { unfold b. apply forallb_forall. intros x Hx. apply in_map_iff in Hx. destruct Hx as (c & <- & Hc). destruct (quoted_ok c) as (_ & _ & _ & _ & X & _). rewrite X. cbn [f_single]. destruct single; [|reflexivity]. destruct (Hn eq_refl) as [N1 N2]. cbn [andb]. destruct (c =? 10) eqn:E1; [apply N.eqb_eq in E1; subst c; contradiction|]. destruct (c =? 13) eqn:E2; [apply N.eqb_eq in E2; subst c; contradiction|]. reflexivity. }
  assert (Nb : b <> []) by (unfold b; destruct t; [congruence|discriminate]). rewrite Q, expand_codes_eq by (apply text_nonempty; exact Nb).
  rewrite <- (app_nil_r (prompt_text b)). rewrite (codes_shown sys (mkF single false) eq_refl b [] (mkP [] false 0) G El eq_refl). cbn [codes p_trim p_out app]. rewrite Sh.
  assert (Nn : ends_with_net b = false). { unfold ends_with_net, b. rewrite <- map_rev. destruct (rev t) as [|c r]; [reflexivity|]. cbn [map]. apply (quoted_ok c). }
  rewrite Nn, andb_false_r. destruct b; [congruence|reflexivity].
Qed.
(** false: $M does not trim if $_ ends the line *)
Definition net_sys : system := mkSys (str "Tue 11/17/2026") (str "10:00") (str "Z:\dir") (str "10.0") (Some (str "\\srv\share")) true 2.
Theorem right_prompt_trim_refuted : exists b, Forall good_token b /\ ends_with_net (first_line b) = true /\ expand_codes net_sys (mkF true false) (prompt_text b) = Some (str "\\srv\share ").
Proof. exists [Code 77; Code 95]. split; [repeat constructor|]. split; reflexivity. Qed.

(** C94: the number of directories pushed is found in the prompt that CMD shows, if $+ is in it once and no $H comes after it *)
Theorem pushd_depth_found : forall sys a b, Forall good_token (a ++ Code 43 :: b) -> pluses a = O -> pluses b = O -> forallb (fun t => negb (erases t)) b = true ->
  pushd_depth sys (Some (prompt_text (a ++ Code 43 :: b))) (shown sys (a ++ Code 43 :: b)) = Some (y_depth sys).
Proof.
  intros sys a b Hg Ha Hb He. unfold pushd_depth. rewrite has_plus_in. rewrite expand_codes_eq by (apply text_nonempty; destruct a; discriminate).
  assert (P : pluses (a ++ Code 43 :: b) = 1%nat). { unfold pluses in *. rewrite filter_app, app_length. cbn [filter is_plus N.eqb Pos.eqb length]. lia. }
  rewrite (codes_omit sys (mkF false true) eq_refl eq_refl _ [] (mkP [] false 0) Hg eq_refl) by (rewrite P; cbn; lia). cbn [app p_trim p_out].
  replace (match a ++ Code 43 :: b with [] => false | _ => false end) with false by (destruct (a ++ Code 43 :: b); reflexivity).
  rewrite !shown_app by (cbn [forallb erases N.eqb Pos.eqb orb negb andb]; exact He). rewrite shown_depth by exact Ha. cbn [map List.concat].
  assert (B : map (token_value (with_depth sys 0)) b = map (token_value sys) b). { clear - Hb. induction b as [|t b IH]; [reflexivity|]. unfold pluses in Hb. cbn [filter] in Hb. destruct (is_plus t) eqn:E; [discriminate Hb|]. cbn [map]. rewrite value_depth by exact E. f_equal. apply IH. exact Hb. }
  rewrite B. change (token_value (with_depth sys 0) (Code 43)) with (@nil N). change (token_value sys (Code 43)) with (repeat 43 (y_depth sys)). apply compare_depth_found.
Qed.
(** what is found is a run of + in what CMD wrote, and without it that is the prompt *)
Theorem pushd_depth_sound : forall sys v captured d, pushd_depth sys (Some v) captured = Some d -> exists a b, expand_codes sys (mkF false true) v = Some (a ++ b) /\ captured = a ++ repeat 43 d ++ b.
Proof.
  intros sys v captured d. unfold pushd_depth. destruct (has_plus v); [|discriminate]. destruct (expand_codes sys (mkF false true) v) as [e|]; [|discriminate]. intro H. apply compare_depth_sound in H. destruct H as (a & b & -> & ->). exists a, b. split; reflexivity.
Qed.
(** it is not known if $+ is in it more than once *)
Theorem pushd_depth_unknown : forall sys b captured, Forall good_token b -> (2 <= pluses b)%nat -> pushd_depth sys (Some (prompt_text b)) captured = None.
Proof.
  intros sys b captured Hg Hp. unfold pushd_depth. destruct (has_plus (prompt_text b)); [|reflexivity]. unfold expand_codes. rewrite (codes_two sys (mkF false true) eq_refl eq_refl b (mkP [] false 0) Hg) by (cbn; lia). destruct (prompt_text b); reflexivity.
Qed.
(** false: $$+ is taken for $+, and 0 is found whatever it is *)
Theorem pushd_escaped_refuted : exists b, Forall good_token b /\ pluses b = O /\ y_depth net_sys = 2%nat /\ pushd_depth net_sys (Some (prompt_text b)) (shown net_sys b) = Some O.
Proof. exists [Code 80; Code 36; Char 43; Code 71]. split; [repeat constructor; discriminate|]. repeat split. Qed.
(** false: with $H after $+ one is missing *)
Theorem pushd_erased_refuted : exists b, Forall good_token b /\ pluses b = 1%nat /\ y_depth net_sys = 2%nat /\ pushd_depth net_sys (Some (prompt_text b)) (shown net_sys b) = Some 1%nat.
Proof. exists [Code 43; Code 72; Code 71]. split; [repeat constructor|]. repeat split. Qed.

(** ** Examples *)
(** $P$H$$x$+$G *)
Definition ex_prompt : list token := [Code 80; Code 72; Code 36; Char 120; Code 43; Code 71].
Example ex_prompt_shown : Forall good_token ex_prompt /\ prompt_text ex_prompt = str "$P$H$$x$+$G" /\ shown net_sys ex_prompt = str "Z:\di$x++>".
Proof. split; [repeat constructor; discriminate|]. split; reflexivity. Qed.
Example ex_depth : pushd_depth net_sys (Some (str "$P+$+++$G")) (str "Z:\dir+++++>") = Some 2%nat.
Proof. vm_compute. reflexivity. Qed.
Example ex_quoted : quoted (str "a<b>") = str "a$Lb$G" /\ expand_codes net_sys (mkF true false) (str "a$Lb$G") = Some (str "a<b>").
Proof. split; reflexivity. Qed.
Example ex_right : let b := [Char 97; Code 77; Char 10; Char 98] in Forall good_token b /\ ends_with_net (first_line b) = true /\ expand_codes net_sys (mkF true false) (prompt_text b) = Some (str "a\\srv\share").
Proof. split; [repeat constructor; discriminate|]. split; reflexivity. Qed.
Print Assumptions prompt_tokens_exist.
Print Assumptions prompt_shown.
Print Assumptions right_prompt_shown.
Print Assumptions prompt_quote_round_trip.
Print Assumptions right_prompt_trim_refuted.
Print Assumptions pushd_depth_found.
Print Assumptions pushd_depth_sound.
Print Assumptions pushd_depth_unknown.
Print Assumptions pushd_escaped_refuted.
Print Assumptions pushd_erased_refuted.
