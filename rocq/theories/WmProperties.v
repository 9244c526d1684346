(** C27: which names path.fnmatch matches. *)
From Verif Require Import Base WmModel WmSpec WmProofs WmMatchProofs.
Local Open Scope N_scope.

(** Every pattern, well formed or not, gets an answer on every name (no fuel runs out), provided the byte before the pattern and
    the one behind the NUL of the name may be read. *)
Theorem wildmatch_defined (high : class -> N -> bool) (beyond before : N) (f : flags) (p s : text) :
  exists b, wildmatch high (Some beyond) (Some before) f p s = Some b.
Proof. unfold wildmatch. apply wm_def; [lia|discriminate]. Qed.

(** A pattern without directory stars matches exactly the names its items accept. *)
Theorem wildmatch_exact (high : class -> N -> bool) (beyond before : N) (f : flags) (ps : list item) (p s : text) :
  writes f beginning ps p -> ~ In Dirs ps ->
  (wildmatch high (Some beyond) (Some before) f p s = Some true <-> accepted high f ps s) /\
  (wildmatch high (Some beyond) (Some before) f p s = Some false <-> ~ accepted high f ps s).
Proof.
  intros W ND.
  assert (WE : writes (effective f) beginning ps p) by (apply (writes_flags f); [reflexivity|reflexivity|exact W]).
  assert (PV : pv_ok beginning (Some before)) by (split; discriminate).
  assert (X : wildmatch high (Some beyond) (Some before) f p s = Some true <-> accepted high f ps s).
  { unfold wildmatch, accepted. fold (effective f). split; intro H.
    - apply (wm_sound high beyond _ (effective f) _ (Some before) s None beginning ps p s WE) in H; [exact H|lia|exact ND|exact PV].
    - apply (wm_complete high beyond _ (effective f) _ (Some before) s None beginning ps p s WE); [lia|exact PV| |exact H]. exists []. reflexivity. }
  split; [exact X|]. destruct (wildmatch_defined high beyond before f p s) as [b B]. rewrite B in *.
  split.
  - intros E A. apply X in A. rewrite A in E. discriminate.
  - intro A. destruct b; [|reflexivity]. exfalso. apply A. apply X. reflexivity.
Qed.

(** With directory stars no name that should match is missed. *)
Theorem wildmatch_directories (high : class -> N -> bool) (beyond before : N) (f : flags) (ps : list item) (p s : text) :
  writes f beginning ps p -> accepted high f ps s -> wildmatch high (Some beyond) (Some before) f p s = Some true.
Proof.
  intros W H. assert (WE : writes (effective f) beginning ps p) by (apply (writes_flags f); [reflexivity|reflexivity|exact W]).
  unfold wildmatch. fold (effective f). apply (wm_complete high beyond _ (effective f) _ (Some before) s None beginning ps p s WE); [lia|split; discriminate| |exact H].
  exists []. reflexivity.
Qed.

(** Directory stars at the beginning and nowhere else (as in **/*.txt), without the period flag: exact. *)
Theorem wildmatch_leading_directories (high : class -> N -> bool) (beyond before : N) (f : flags) (ps : list item) (p s : text) :
  writes f beginning (Dirs :: ps) p -> ~ In Dirs ps -> period f = false ->
  (wildmatch high (Some beyond) (Some before) f p s = Some true <-> accepted high f (Dirs :: ps) s).
Proof.
  intros W ND PE. split; [|apply wildmatch_directories; exact W]. intro H.
  assert (WE : writes (effective f) beginning (Dirs :: ps) p) by (apply (writes_flags f); [reflexivity|reflexivity|exact W]).
  inversion WE as [| | | | | | |sl ps1 p1 n PL WI NS W1]; subst. unfold wildmatch in H. unfold accepted. fold (effective f) in H. rewrite PE in *.
  apply (wm_dirs_sound high beyond (S (S (n + S (length p1)))) (effective f) before p1 ps n s WI W1 ND NS); [lia|].
  cbn [length] in H. rewrite app_length, repeat_length in H. cbn [length] in H. change (period (effective f)) with (period f) in H. rewrite PE in H. exact H.
Qed.

(** Neither the byte before the pattern nor what is behind the name matters. *)
Theorem wildmatch_surroundings (high : class -> N -> bool) (x x' y y' : N) (f : flags) (ps : list item) (p s : text) :
  writes f beginning ps p -> ~ In Dirs ps ->
  wildmatch high (Some x) (Some y) f p s = wildmatch high (Some x') (Some y') f p s.
Proof.
  intros W ND. destruct (wildmatch_exact high x y f ps p s W ND) as [A1 A2]. destruct (wildmatch_exact high x' y' f ps p s W ND) as [B1 B2].
  destruct (wildmatch_defined high x y f p s) as [[|] E]; rewrite E; symmetry.
  - apply B1, A1, E.
  - apply B2, A2, E.
Qed.

(** Every pattern without brackets, without two stars in a row and not ending in a backslash reads as items. *)
Theorem wildmatch_readable (f : flags) (p : text) :
  Forall (fun c => c <> 0 /\ c <> 91) p -> (forall a b, p <> a ++ 42 :: 42 :: b) -> (forall a, p <> a ++ [92]) ->
  exists ps, writes f beginning ps p /\ ~ In Dirs ps /\ ~ In Rest ps.
Proof. intros F S2 B. apply (reads f (length p)); [lia|exact F|exact S2|exact B]. Qed.

(** The flags argument: a text of these seven letters, in any order and any number; each letter says one thing, and
    without it the default holds.  Any other letter is an error. *)
Definition has (c : N) (l : text) : bool := if in_dec N.eq_dec c l then true else false.
Lemma has_cons c x l : has c (x :: l) = (x =? c) || has c l.
Proof.
  unfold has. destruct (in_dec N.eq_dec c (x :: l)) as [H|H], (in_dec N.eq_dec c l) as [H2|H2], (N.eqb_spec x c) as [E|E]; cbn in *;
    try reflexivity; exfalso; intuition congruence.
Qed.
Theorem fnmatch_flags (l : text) (f : flags) :
  fn_flags l fn_default = Some f <->
  (forall c, In c l -> In c [101; 112; 46; 108; 99; 42; 115]) /\
  escape f = negb (has 101 l) /\ pathname f = has 112 l /\ period f = has 46 l /\ leading_dir f = has 108 l /\
  casefold f = negb (has 99 l) /\ wildstar f = has 42 l /\ slashfold f = negb (has 115 l).
Proof.
  assert (H : forall l g, fn_flags l g = Some f <->
    (forall c, In c l -> In c [101; 112; 46; 108; 99; 42; 115]) /\
    f = mkf (escape g && negb (has 101 l)) (pathname g || has 112 l) (period g || has 46 l) (leading_dir g || has 108 l)
            (casefold g && negb (has 99 l)) (wildstar g || has 42 l) (slashfold g && negb (has 115 l))).
  { clear l. induction l as [|c l IH]; intro g.
    - cbn [fn_flags]. unfold has. cbn [in_dec negb]. destruct g. cbn. rewrite ?andb_true_r, ?orb_false_r.
      split; [intro E; injection E as <-; split; [contradiction|auto]|intros [_ ->]; auto].
    - cbn [fn_flags]. rewrite !has_cons.
      assert (Hall : (forall x, In x (c :: l) -> In x [101; 112; 46; 108; 99; 42; 115]) <->
         In c [101; 112; 46; 108; 99; 42; 115] /\ forall x, In x l -> In x [101; 112; 46; 108; 99; 42; 115]).
      { split; [intro A; split; [apply A; left; auto|intros; apply A; right; auto]|intros [A1 A2] x [<-|Hx]; auto]. }
      rewrite Hall. clear Hall.
      repeat match goal with
      | |- context [if c =? ?k then _ else _] => destruct (N.eqb_spec c k) as [->|?]
      end; try (rewrite IH; cbn [escape pathname period leading_dir casefold wildstar slashfold N.eqb Pos.eqb orb negb];
        rewrite ?orb_true_r, ?andb_false_r; cbn [orb andb];
        split; [intros [A ->]; split; [split; [cbn; auto 10|exact A]|reflexivity]|intros [[_ A] ->]; split; [exact A|reflexivity]]).
      split; [discriminate|]. intros [[A _] _]. cbn in A. exfalso. intuition congruence. }
  rewrite H. destruct f as [f1 f2 f3 f4 f5 f6 f7].
  cbn [fn_default escape pathname period leading_dir casefold wildstar slashfold andb orb].
  split; [intros [A E]; injection E as -> -> -> -> -> -> ->; auto 10|intros (A & -> & -> & -> & -> & -> & -> & ->); auto].
Qed.

(** ** What does not hold *)
Definition b (s : string) : text := map N_of_ascii (list_ascii_of_string s).
Definition none (k : class) (c : N) : bool := false.
Definition fn (l : string) : flags := match fn_flags (b l) fn_default with Some f => f | None => fn_default end.
Definition ask (l p s : string) : option bool := wildmatch none (Some 0) (Some 0) (fn l) (b p) (b s).

(** Brackets around capital letters match nothing when case is folded (the default): [ABC] does not even match A, while a range
    does. *)
Theorem wildmatch_capital_set_refuted :
  ask "" "[ABC]" "A" = Some false /\ ask "" "[ABC]" "a" = Some false /\ ask "" "[A-C]" "A" = Some true /\ ask "" "[abc]" "A" = Some true.
Proof. vm_compute. auto. Qed.
(** Directory stars behind a directory may step back before it: x/y/**/y/z matches x/y/z. *)
Theorem wildmatch_back_refuted :
  ask "*" "x/y/**/y/z" "x/y/z" = Some true /\
  (let f := effective (fn "*") in let l := map Lit in
   writes (fn "*") beginning (map Lit (b "x/y/") ++ Dirs :: map Lit (b "y/z")) (b "x/y/**/y/z")).
Proof.
  split; [vm_compute; reflexivity|]. cbv zeta.
  repeat (apply P_lit; [discriminate|unfold special; intros [X|[X|[X|[X _]]]]; discriminate|]).
  apply (P_dirs (fn "*") behind_slash _ (b "y/z") 0); [discriminate|reflexivity|intros [X _]; discriminate|].
  repeat (apply P_lit; [discriminate|unfold special; intros [X|[X|[X|[X _]]]]; discriminate|]). apply P_end.
Qed.
(** The period flag is forgotten behind a star: */* matches a/.b though /? and * do not match hidden names. *)
Theorem wildmatch_period_refuted :
  ask "p." "*/*" "a/.b" = Some true /\ ask "p." "a/*" "a/.b" = Some false /\ ask "p." "*" ".b" = Some false.
Proof. vm_compute. auto. Qed.
(** The result for ** depends on the byte before the pattern, which the function has no right to read. *)
Theorem wildmatch_before_refuted :
  wildmatch none (Some 0) (Some 47) (fn "*") (b "**") (b "a/b") = Some true /\
  wildmatch none (Some 0) (Some 0) (fn "*") (b "**") (b "a/b") = Some false /\
  wildmatch none (Some 0) None (fn "*") (b "**") (b "a/b") = None.
Proof. vm_compute. auto. Qed.
(** A backslash at the end of the pattern makes it read behind the NUL of a name that ends there. *)
Theorem wildmatch_behind_refuted : wildmatch none None (Some 0) (fn "") (b "a\") (b "a") = None.
Proof. vm_compute. reflexivity. Qed.
(** A bracket that is not closed is compared with the character behind the one it stands at. *)
Theorem wildmatch_open_bracket_refuted : ask "" "[a" "x[a" = Some true /\ ask "" "[a" "[a" = Some false.
Proof. vm_compute. auto. Qed.
(** Two stars inside a name match nothing at all under the wildstar flag. *)
Theorem wildmatch_inner_stars_refuted : ask "*" "a**b" "ab" = Some false /\ ask "*" "a**b" "axb" = Some false /\ ask "p" "a**b" "axb" = Some true.
Proof. vm_compute. auto. Qed.

(** ** Examples *)
Example src_pattern_reads :
  writes (fn "*") beginning [Dirs; Star; Lit 46; Set_ false [One 99; Class Cdigit; Range 104 106]] (b "**/*.[c[:digit:]h-j]").
Proof.
  apply (P_dirs (fn "*") beginning _ (b "*.[c[:digit:]h-j]") 0); [discriminate|reflexivity|intros [_ X]; discriminate|].
  apply P_star; [intros _ X; discriminate|]. apply P_lit; [discriminate|unfold special; intros [X|[X|[X|[X _]]]]; discriminate|].
  apply (P_set (fn "*") _ false _ (b "c[:digit:]h-j]") [] []); [|apply P_end]. split; [|split; discriminate].
  apply (E_one (fn "*") true 99 [99] _ (b "[:digit:]h-j]")).
  - split; [discriminate|]. left. split; [reflexivity|]. intros [X _]. discriminate.
  - discriminate.
  - intros [X _]. discriminate.
  - intros [X _]. discriminate.
  - apply (E_class (fn "*") false Cdigit _ (b "h-j]")). apply (E_range (fn "*") false 104 106 [104] [106] [] (b "]")); try discriminate.
    + split; [discriminate|]. left. split; [reflexivity|]. intros [X _]. discriminate.
    + split; [discriminate|]. left. split; [reflexivity|]. intros [X _]. discriminate.
    + apply E_end.
Qed.
Example src_pattern_matches :
  map (ask "*" "**/*.[c[:digit:]h-j]") ["a.c"; "d\e\a.H"; "d/e/a.7"; "d/a.b"; "a.cc"]%string = [Some true; Some true; Some true; Some false; Some false].
Proof. vm_compute. reflexivity. Qed.
Example plain_pattern_reads : exists ps, writes (fn "p") beginning ps (b "src\\*.??") /\ ~ In Dirs ps /\ ~ In Rest ps.
Proof.
  apply wildmatch_readable.
  - vm_compute. repeat constructor; discriminate.
  - intros x y E. vm_compute in E. repeat (destruct x as [|? x]; cbn [app] in E; [discriminate E|injection E as _ E]); destruct x; discriminate E.
  - intros x E. apply (f_equal (@rev N)) in E. rewrite rev_app_distr in E. vm_compute in E. discriminate.
Qed.

Example some_flags : fn_flags (b "p*cp") fn_default = Some (mkf true true false false false true true) /\ fn_flags (b "px") fn_default = None.
Proof. vm_compute. auto. Qed.

Print Assumptions fnmatch_flags.
Print Assumptions wildmatch_defined.
Print Assumptions wildmatch_exact.
Print Assumptions wildmatch_directories.
Print Assumptions wildmatch_leading_directories.
Print Assumptions wildmatch_surroundings.
Print Assumptions wildmatch_readable.
Print Assumptions wildmatch_capital_set_refuted.
Print Assumptions wildmatch_back_refuted.
Print Assumptions wildmatch_period_refuted.
Print Assumptions wildmatch_before_refuted.
Print Assumptions wildmatch_behind_refuted.
Print Assumptions wildmatch_open_bracket_refuted.
Print Assumptions wildmatch_inner_stars_refuted.
