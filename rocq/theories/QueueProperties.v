(** C40: the queue of input lines. *)
From Verif Require Import Base UtfModel UtfSpec UtfProofs UtfProperties QueueModel QueueSpec QueueProofs.

Lemma run_refines resolve : (forall t, text8 t -> text8 (resolve t)) -> forall os q a, Forall op_ok os -> Forall2 rel q a ->
  let '(rs, q') := q_run resolve q os in exists a', s_run resolve a os rs a' /\ Forall2 rel q' a'.
Proof.
  intros Hr. induction os as [|o os IH]; intros q a Hok H; [exists a; split; [constructor|exact H]|].
  inversion_clear Hok as [|? ? Ho Hos]. cbn [q_run].
  assert (Hstep : let '(r, q1) := q_step resolve q o in exists a1, s_step resolve a o r a1 /\ Forall2 rel q1 a1).
  { destruct o as [t|ls| | |]; cbn [q_step op_ok] in *.
    - exists (s_back a (w16 t)). split; [constructor|apply back_ok; assumption].
    - destruct (front_ok ls q a Ho H) as (ss & H1 & H2). exists (ss ++ a). split; [constructor; exact H1|exact H2].
    - pose proof (line_ok resolve q a Hr H) as HL. destruct (dequeue_line resolve q) as [[[out f] q']|]; [exact HL|]. destruct HL as [-> ->]. exists []. split; [constructor|constructor].
    - pose proof (char_ok q a H) as HC. destruct (dequeue_char q) as [[[ok c] nl] q']. destruct (s_char a) as [[[c' nl'] a']|] eqn:Es.
      + destruct HC as (-> & -> & -> & H'). exists a'. split; [constructor; exact Es|exact H'].
      + destruct HC as (-> & H'). exists a. split; [constructor; exact Es|exact H'].
    - exists []. split; [constructor|constructor]. }
  destruct (q_step resolve q o) as [r q1]. destruct Hstep as (a1 & S1 & H1). specialize (IH q1 a1 Hos H1).
  destruct (q_run resolve q1 os) as [rs q2]. destruct IH as (a2 & S2 & H2). exists a2. split; [econstructor; eassumption|exact H2].
Qed.

(** Whatever is done with the queue (UTF-8 text, any alias expansion producing UTF-8 text), every answer is one the
    specified queue gives: nothing is lost, duplicated or reordered. *)
Theorem c40_refines : forall resolve os, (forall t, text8 t -> text8 (resolve t)) -> Forall op_ok os ->
  exists a, s_run resolve [] os (fst (q_run resolve [] os)) a.
Proof.
  intros resolve os Hr Hok. pose proof (run_refines resolve Hr os [] [] Hok (Forall2_nil _)) as H.
  destruct (q_run resolve [] os) as [rs q]. destruct H as (a & H & _). exists a. exact H.
Qed.
Print Assumptions c40_refines.

(** In the specified queue: taking characters yields the queued text in order, and text added at the back stays behind
    all of it. *)
Definition stream (q : list seg) : list N := flat_map s_units q.
Theorem c40_stream : forall q,
  (forall c nl q', s_char q = Some (c, nl, q') -> stream q = c :: stream q') /\
  (s_char q = None -> q = [] \/ exists s r, q = s :: r /\ s_units s = []) /\
  (forall u, stream (s_back q u) = stream q ++ u) /\
  (forall resolve ls q', s_step resolve q (OFront ls) RNone q' -> exists us, Forall2 (fun x u => normal (w16 (fst x)) u) ls us /\ stream q' = concat us ++ stream q) /\
  (forall resolve out f q', (forall x, resolve x = []) -> s_step resolve q OLine (RLine (Some (out, f))) q' ->
     exists u, stream q = u ++ stream q' /\ normal (w8 u) out).
Proof.
  intro q. split; [|split; [|split; [|split]]].
  - intros c nl q' E. destruct q as [|s q]; [discriminate|]. cbn [s_char] in E. unfold stream. cbn [flat_map]. destruct (s_units s) as [|c0 u]; [discriminate|].
    injection E as -> _ <-. cbn [app]. f_equal. destruct u; reflexivity.
  - intro E. destruct q as [|s q]; [left; reflexivity|]. right. cbn [s_char] in E. exists s, q. split; [reflexivity|]. destruct (s_units s); [reflexivity|discriminate].
  - intro u. unfold s_back, stream. destruct u as [|x u]; [rewrite app_nil_r; reflexivity|]. destruct (rev q) as [|s r] eqn:Er.
    + assert (q = []) by (rewrite <- (rev_involutive q), Er; reflexivity). subst q. cbn. rewrite app_nil_r. reflexivity.
    + assert (Eq : q = rev r ++ [s]) by (rewrite <- (rev_involutive q), Er; reflexivity). rewrite Eq. destruct (ends_nl (s_units s)); rewrite !flat_map_app; cbn [flat_map s_units]; rewrite ?app_nil_r, ?app_assoc; reflexivity.
  - intros resolve ls q' E. inversion E as [|? ? ss HF| | | | | |]; subst. exists (map s_units ss). split.
    + clear -HF. induction HF as [|x s ls ss (H & _) HF IH]; [constructor|]. cbn [map]. constructor; auto.
    + unfold stream. rewrite flat_map_app. f_equal. apply flat_map_concat_map.
  - intros resolve out f q' Hr E. inversion E as [| | |s q0 o Hx Hn| s q0 x p ps o Hm Hx Hl Hn| | |]; subst.
    + exists (s_units s). split; [reflexivity|exact Hn].
    + exfalso. rewrite Hr in Hl. destruct Hl as [_ [K|[K K2]]]; cbn [map concat] in K; [destruct p; discriminate|].
      destruct p as [|c p]; [|cbn in K; injection K as _ K; destruct p; discriminate].
      cbn [app] in K. injection K as K. destruct ps as [|p2 ps]; [cbn in K2; contradiction|]. cbn [map concat] in K. destruct p2; discriminate.
Qed.
Print Assumptions c40_stream.

Example c40_example : let r := q_run (fun _ => []) []
    [OBack [100; 105; 114]; OBack [10]; OFront [([120], mkF false false false true)]; OChar; OLine; OChar; OLine; OLine]%N in
  fst r = [RNone; RNone; RNone; RChar (Some (120%N, true)); RLine (Some ([13; 10]%N, mkF false false false true));
           RChar (Some (100%N, true)); RLine (Some ([105; 114; 13; 10]%N, mkF false true false false)); RLine None].
Proof. vm_compute. reflexivity. Qed.

(** The pieces of an alias expansion have no line end in the queue: text queued later is glued to the last of them,
    making one command of two. *)
Theorem c40_alias_separate_refuted : exists resolve os,
  Forall op_ok os /\ (forall t, text8 t -> text8 (resolve t)) /\
  os = [OFront [([97]%N, mkF false false false false)]; OLine; OBack [100; 10]%N; OLine] /\
  resolve [97]%N = [98; 10; 99]%N /\
  fst (q_run resolve [] os) =
    [RNone; RLine (Some ([98; 13; 10]%N, mkF false false false false)); RNone; RLine (Some ([99; 100; 13; 10]%N, mkF true false false true))].
Proof.
  exists (fun _ => [98; 10; 99]%N). eexists. split; [|split; [|split; [reflexivity|split; [reflexivity|vm_compute; reflexivity]]]].
  - repeat constructor; [exists [97]%N|exists [100; 10]%N]; split; try reflexivity; repeat constructor; unfold scalar; lia.
  - intros _ _. exists [98; 10; 99]%N. split; [repeat constructor; unfold scalar; lia|reflexivity].
Qed.
Print Assumptions c40_alias_separate_refuted.

(** An empty piece blocks reading by characters for good. *)
Lemma stuck resolve q n : q_step resolve q OChar = (RChar None, q) -> q_run resolve q (repeat OChar n) = (repeat (RChar None) n, q).
Proof. intro E. induction n as [|n IH]; [reflexivity|]. cbn [repeat q_run]. rewrite E, IH. reflexivity. Qed.
Theorem c40_chars_always_refuted : exists resolve, resolve [97]%N = [98; 10; 10; 99]%N /\ forall n,
  let '(rs, q) := q_run resolve [] ([OFront [([97]%N, mkF false false false false)]; OLine] ++ repeat OChar n) in
  q <> [] /\ rs = [RNone; RLine (Some ([98; 13; 10]%N, mkF false false false false))] ++ repeat (RChar None) n.
Proof.
  exists (fun _ => [98; 10; 10; 99]%N). split; [reflexivity|]. intro n.
  set (q := [mkQ [] [] 0 hide_nodos; mkQ [99%N] [] 0 hide_nodos]).
  replace (q_run (fun _ => [98; 10; 10; 99]%N) [] ([OFront [([97]%N, mkF false false false false)]; OLine] ++ repeat OChar n))
    with (let '(rs, q2) := q_run (fun _ => [98; 10; 10; 99]%N) q (repeat OChar n) in ([RNone; RLine (Some ([98; 13; 10]%N, mkF false false false false))] ++ rs, q2)).
  - rewrite stuck by (vm_compute; reflexivity). split; [discriminate|reflexivity].
  - cbn [app q_run]. change (q_step (fun _ => [98; 10; 10; 99]%N) [] (OFront [([97]%N, mkF false false false false)])) with (RNone, [mkQ [97; 13; 10]%N [] 0 (mkF false false false false)]).
    cbv beta iota. replace (q_step (fun _ => [98; 10; 10; 99]%N) [mkQ [97; 13; 10]%N [] 0 (mkF false false false false)] OLine)
      with (RLine (Some ([98; 13; 10]%N, mkF false false false false)), q) by (vm_compute; reflexivity).
    destruct (q_run (fun _ => [98; 10; 10; 99]%N) q (repeat OChar n)). reflexivity.
Qed.
Print Assumptions c40_chars_always_refuted.

(** A line added at the front loses the blank lines at its end. *)
Theorem c40_blank_lines_kept_refuted : exists t,
  fst (q_run (fun _ => []) [] [OFront [(t, mkF false false false true)]; OLine]) = [RNone; RLine (Some ([97; 13; 10]%N, mkF false false false true))] /\ t = [97; 13; 10; 13; 10]%N.
Proof. eexists. split; [|reflexivity]. vm_compute. reflexivity. Qed.
Print Assumptions c40_blank_lines_kept_refuted.
