(** Proofs about ellipsify *)
From Verif Require Import Base UtfModel UtfSpec UtfProofs EscModel EscSpec EscProofs EscSplit WidthModel WcModel WcSpec WcProofs WcProperties EllModel EllSpec.
Open Scope N_scope.

Definition all_pos (l : list bit) : Prop := Forall (fun b => (0 <= bcells b)%Z) l.
Lemma width_cons b l : width (b :: l) = (bcells b + width l)%Z.
Proof. reflexivity. Qed.
Lemma width_app a b : width (a ++ b) = (width a + width b)%Z.
Proof. induction a as [|x a IH]; [reflexivity|]. cbn [app]. rewrite !width_cons, IH. lia. Qed.
Lemma width_pos l : all_pos l -> (0 <= width l)%Z.
Proof. induction 1 as [|b l H F IH]; [cbn; lia|]. rewrite width_cons. lia. Qed.
Lemma text_cons b l : text (b :: l) = btext b ++ text l.
Proof. reflexivity. Qed.
Lemma text_app a b : text (a ++ b) = text a ++ text b.
Proof. unfold text. rewrite map_app, concat_app. reflexivity. Qed.
(** codes take no cells *)
Definition code0 (l : list bit) : Prop := Forall (fun b => is_chars b = false -> bcells b = 0%Z) l.

Section Right.
Variables limit e : Z.
Hypothesis He : (0 <= e)%Z.

Lemma rloop_set l : forall v out v0 n, all_pos l -> code0 l -> (v <= limit)%Z -> (n <= length out)%nat ->
  rloop limit e l v out (Some (v0, n)) = if (v + width l <=? limit)%Z then More (v + width l) (out ++ text l) (Some (v0, n)) else Cut v0 (firstn n out).
Proof.
  induction l as [|b l IH]; intros v out v0 n Hp Hc Hv Hn.
  - cbn [rloop width map fold_right text concat]. rewrite Z.add_0_r, app_nil_r. replace (v <=? limit)%Z with true by lia. reflexivity.
  - pose proof (Forall_inv Hp) as Hb. pose proof (Forall_inv_tail Hp) as Hp'. pose proof (Forall_inv Hc) as Hcb. pose proof (Forall_inv_tail Hc) as Hc'. pose proof (width_pos l Hp') as Hw. cbn [rloop]. rewrite width_cons, text_cons.
    destruct (is_chars b) eqn:Eb.
    + destruct (limit <? v + bcells b)%Z eqn:El; [replace (v + (bcells b + width l) <=? limit)%Z with false by lia; reflexivity|].
      rewrite IH by (try assumption; try (rewrite app_length); lia). rewrite <- app_assoc, Z.add_assoc. destruct (v + bcells b + width l <=? limit)%Z; [reflexivity|]. f_equal. rewrite firstn_app. replace (n - length out)%nat with 0%nat by lia. rewrite firstn_O, app_nil_r. reflexivity.
    + rewrite (Hcb Eb). rewrite IH by (try assumption; rewrite app_length; lia). rewrite <- app_assoc. cbn [Z.add]. destruct (v + width l <=? limit)%Z; [reflexivity|]. f_equal. rewrite firstn_app. replace (n - length out)%nat with 0%nat by lia. rewrite firstn_O, app_nil_r. reflexivity.
Qed.
(** where the text is cut *)
Definition cut_at (l : list bit) (v : Z) (k : nat) : Prop :=
  exists b, nth_error l k = Some b /\ is_chars b = true /\ (limit - e < v + width (firstn k l) + bcells b)%Z /\ (v + width (firstn k l) <= Z.max v (limit - e))%Z.
Lemma rloop_spec l : forall v out, all_pos l -> code0 l -> (v <= limit)%Z ->
  if (v + width l <=? limit)%Z then exists tr, rloop limit e l v out None = More (v + width l) (out ++ text l) tr
  else exists k, cut_at l v k /\ rloop limit e l v out None = Cut (v + width (firstn k l)) (out ++ text (firstn k l)).
Proof.
  induction l as [|b l IH]; intros v out Hp Hc Hv.
  - cbn [rloop width map fold_right text concat]. rewrite Z.add_0_r, app_nil_r. replace (v <=? limit)%Z with true by lia. eauto.
  - pose proof (Forall_inv Hp) as Hb. pose proof (Forall_inv_tail Hp) as Hp'. pose proof (Forall_inv Hc) as Hcb. pose proof (Forall_inv_tail Hc) as Hc'. cbn beta in Hb. pose proof (width_pos l Hp') as Hw. cbn [rloop]. rewrite width_cons, text_cons.
    destruct (is_chars b) eqn:Eb.
    + destruct (limit - e <? v + bcells b)%Z eqn:Ee.
      * assert (K0 : cut_at (b :: l) v 0) by (exists b; split; [reflexivity|]; split; [exact Eb|]; cbn [firstn width map fold_right]; lia).
        destruct (limit <? v + bcells b)%Z eqn:El.
        -- replace (v + (bcells b + width l) <=? limit)%Z with false by lia. exists 0%nat. split; [exact K0|]. cbn [firstn width text map fold_right concat]. rewrite firstn_all, app_nil_r, Z.add_0_r. reflexivity.
        -- rewrite rloop_set by (try assumption; try (rewrite app_length); lia). rewrite <- app_assoc, Z.add_assoc. destruct (v + bcells b + width l <=? limit)%Z; [eauto|]. exists 0%nat. split; [exact K0|]. cbn [firstn width text map fold_right concat]. rewrite app_nil_r, Z.add_0_r. f_equal. rewrite firstn_app, Nat.sub_diag, firstn_O, app_nil_r, firstn_all. reflexivity.
      * destruct (limit <? v + bcells b)%Z eqn:El; [lia|]. specialize (IH (v + bcells b)%Z (out ++ btext b) Hp' Hc' ltac:(lia)). rewrite Z.add_assoc. destruct (v + bcells b + width l <=? limit)%Z.
        -- destruct IH as (tr & E). exists tr. rewrite E, <- app_assoc. reflexivity.
        -- destruct IH as (k & (b' & En & Ec & E1 & E2) & E). exists (S k). split; [exists b'; split; [exact En|]; split; [exact Ec|]; cbn [firstn]; rewrite width_cons; lia|]. rewrite E. cbn [firstn]. rewrite width_cons, text_cons, <- app_assoc, Z.add_assoc. reflexivity.
    + rewrite (Hcb Eb). specialize (IH v (out ++ btext b) Hp' Hc' Hv). cbn [Z.add]. destruct (v + width l <=? limit)%Z.
      * destruct IH as (tr & E). exists tr. rewrite E, <- app_assoc. reflexivity.
      * destruct IH as (k & (b' & En & Ec & E1 & E2) & E). exists (S k). split; [exists b'; split; [exact En|]; split; [exact Ec|]; cbn [firstn]; rewrite width_cons, (Hcb Eb), Z.add_0_l; split; assumption|]. rewrite E. cbn [firstn]. rewrite width_cons, text_cons, <- app_assoc, (Hcb Eb). reflexivity.
Qed.

(** code by code *)
Lemma rloop_app a : forall b v out tr, rloop limit e (a ++ b) v out tr = match rloop limit e a v out tr with More v out tr => rloop limit e b v out tr | r => r end.
Proof.
  induction a as [|x a IH]; intros b v out tr; [reflexivity|]. cbn [app rloop]. destruct (is_chars x); [|apply IH]. cbv zeta. destruct (limit <? v + bcells x)%Z; [|apply IH]. destruct tr as [[v0 n]|]; [reflexivity|]. destruct (limit - e <? v + bcells x)%Z; reflexivity.
Qed.
Lemma rloop_le a : forall v out tr v' out' tr', (v <= limit)%Z -> rloop limit e a v out tr = More v' out' tr' -> (v' <= limit)%Z.
Proof.
  induction a as [|x a IH]; intros v out tr v' out' tr' Hv H; [injection H as <- _ _; exact Hv|]. cbn [rloop] in H. destruct (is_chars x); [|exact (IH _ _ _ _ _ _ Hv H)]. cbv zeta in H. destruct (limit <? v + bcells x)%Z eqn:E; [|assert (Hx : (v + bcells x <= limit)%Z) by lia; exact (IH _ _ _ _ _ _ Hx H)].
  destruct tr as [[v0 n]|]; [discriminate|]. destruct (limit - e <? v + bcells x)%Z; discriminate.
Qed.
Lemma rcodes_flat cs : forall v out tr, (v <= limit)%Z -> rcodes limit e cs v out tr = rloop limit e (concat cs) v out tr.
Proof.
  induction cs as [|c cs IH]; intros v out tr Hv; cbn [rcodes]; replace (v <=? limit)%Z with true by lia; [reflexivity|]. cbn [concat]. rewrite rloop_app. destruct (rloop limit e c v out tr) as [v' out' tr'| |] eqn:E; try reflexivity. apply IH. exact (rloop_le _ _ _ _ _ _ _ Hv E).
Qed.
Lemma rcodes_spec cs : all_pos (concat cs) -> code0 (concat cs) -> (0 <= limit)%Z ->
  if (width (concat cs) <=? limit)%Z then exists tr, rcodes limit e cs 0 [] None = More (width (concat cs)) (text (concat cs)) tr
  else exists k, cut_at (concat cs) 0 k /\ rcodes limit e cs 0 [] None = Cut (width (firstn k (concat cs))) (text (firstn k (concat cs))).
Proof. intros Hp Hc Hl. rewrite rcodes_flat by exact Hl. exact (rloop_spec (concat cs) 0 [] Hp Hc Hl). Qed.
End Right.

Section Left.
Variables limit e : Z.
Hypothesis He : (0 <= e)%Z.
Lemma lloop_set l : forall v v0 k, all_pos l -> code0 l -> (v <= limit)%Z -> lloop limit e l v (Some (v0, k)) = if (v + width l <=? limit)%Z then LFit else LCut v0 k.
Proof.
  induction l as [|b l IH]; intros v v0 k Hp Hc Hv.
  - cbn [lloop width map fold_right]. rewrite Z.add_0_r. replace (v <=? limit)%Z with true by lia. reflexivity.
  - pose proof (Forall_inv Hp) as Hb. pose proof (Forall_inv_tail Hp) as Hp'. pose proof (Forall_inv Hc) as Hcb. pose proof (Forall_inv_tail Hc) as Hc'. cbn beta in Hb. pose proof (width_pos l Hp') as Hw. cbn [lloop]. rewrite width_cons. replace (v <=? limit)%Z with true by lia.
    destruct (is_chars b) eqn:Eb.
    + destruct (limit <? v + bcells b)%Z eqn:El; [replace (v + (bcells b + width l) <=? limit)%Z with false by lia; reflexivity|]. rewrite IH by (try assumption; lia). rewrite Z.add_assoc. reflexivity.
    + rewrite (Hcb Eb). apply IH; assumption.
Qed.
(** [l] is reversed: the last [j] runs are kept *)
Lemma lloop_spec l : forall v, all_pos l -> code0 l -> (v <= limit)%Z ->
  if (v + width l <=? limit)%Z then lloop limit e l v None = LFit
  else exists j, cut_at limit e l v j /\ lloop limit e l v None = LCut (v + width (firstn j l)) (length l - j).
Proof.
  induction l as [|b l IH]; intros v Hp Hc Hv.
  - cbn [lloop width map fold_right]. rewrite Z.add_0_r. replace (v <=? limit)%Z with true by lia. reflexivity.
  - pose proof (Forall_inv Hp) as Hb. pose proof (Forall_inv_tail Hp) as Hp'. pose proof (Forall_inv Hc) as Hcb. pose proof (Forall_inv_tail Hc) as Hc'. cbn beta in Hb. pose proof (width_pos l Hp') as Hw. cbn [lloop]. rewrite width_cons. replace (v <=? limit)%Z with true by lia.
    destruct (is_chars b) eqn:Eb.
    + destruct (limit - e <? v + bcells b)%Z eqn:Ee.
      * assert (K0 : cut_at limit e (b :: l) v 0) by (exists b; split; [reflexivity|]; split; [exact Eb|]; cbn [firstn width map fold_right]; lia).
        destruct (limit <? v + bcells b)%Z eqn:El.
        -- replace (v + (bcells b + width l) <=? limit)%Z with false by lia. exists 0%nat. split; [exact K0|]. cbn [firstn width map fold_right length]. rewrite Z.add_0_r, Nat.sub_0_r. reflexivity.
        -- rewrite lloop_set by (try assumption; lia). rewrite Z.add_assoc. destruct (v + bcells b + width l <=? limit)%Z; [reflexivity|]. exists 0%nat. split; [exact K0|]. cbn [firstn width map fold_right length]. rewrite Z.add_0_r, Nat.sub_0_r. reflexivity.
      * destruct (limit <? v + bcells b)%Z eqn:El; [lia|]. specialize (IH (v + bcells b)%Z Hp' Hc' ltac:(lia)). rewrite Z.add_assoc. destruct (v + bcells b + width l <=? limit)%Z; [exact IH|].
        destruct IH as (k & (b' & En & Ec & E1 & E2) & E). exists (S k). split; [exists b'; split; [exact En|]; split; [exact Ec|]; cbn [firstn]; rewrite width_cons; lia|]. rewrite E. cbn [firstn length Nat.sub]. rewrite width_cons, Z.add_assoc. reflexivity.
    + rewrite (Hcb Eb). specialize (IH v Hp' Hc' Hv). cbn [Z.add]. destruct (v + width l <=? limit)%Z; [exact IH|].
      destruct IH as (k & (b' & En & Ec & E1 & E2) & E). exists (S k). split; [exists b'; split; [exact En|]; split; [exact Ec|]; cbn [firstn]; rewrite width_cons, (Hcb Eb), Z.add_0_l; split; assumption|]. rewrite E. cbn [firstn length Nat.sub]. rewrite width_cons, (Hcb Eb). reflexivity.
Qed.
End Left.

Section Ell.
Variable ce : bool.
Variable wcw : N -> Z.
Notation codes_of := (codes_of ce wcw). Notation measure := (measure ce wcw). Notation cell_count := (cell_count ce wcw). Notation scan_all := scan_all.

(** ** Any bytes: everything is defined *)
Lemma scan_total total fuel : forall s t, (exists l s', codes fuel s t = Some (l, s')) -> exists l, scan total fuel s t = Some l.
Proof.
  induction fuel as [|fuel IH]; intros s t (l & s' & E); [discriminate|]. cbn [codes scan] in *. destruct (enext s t) as [[[[[[ty c] x]|] s1] t1]|]; [|eauto|discriminate]. destruct (len16 x =? 0); [eauto|].
  destruct (codes fuel s1 t1) as [[l1 s2]|] eqn:E1; [|discriminate]. destruct (IH s1 t1) as (l2 & E2); [eauto|]. cbv zeta. rewrite E2. eauto.
Qed.
Lemma clen_pos ex w : (0 <= clen ex w)%Z.
Proof. unfold clen. destruct (w <? 0)%Z eqn:E; [destruct ex; lia|lia]. Qed.
Lemma bits_place n l : bits (place n l) = l.
Proof. revert n. induction l as [|b l IH]; intro n; [reflexivity|]. cbn [place bits map fst]. f_equal. apply IH. Qed.
Lemma bits_app a b : bits (a ++ b) = bits a ++ bits b. Proof. apply map_app. Qed.
Lemma bits_concat cs : bits (concat cs) = concat (map bits cs). Proof. apply concat_map. Qed.
Lemma bits_of_total ex c : exists l, bits_of ce wcw ex c = Some l /\ all_pos (bits l) /\ code0 (bits l).
Proof.
  destruct c as [[[ch x] from] fin]. unfold bits_of. destruct ch.
  - destruct (c52_partition ce wcw x) as (l & e & E & _). unfold chars in E. unfold gl. rewrite E. eexists. split; [reflexivity|]. rewrite bits_place. clear E. induction l as [|g l [IH1 IH2]]; [split; constructor|]. cbn [map]. split; (constructor; [|assumption]); [apply clen_pos|discriminate].
  - eexists. split; [reflexivity|]. cbn. split; (constructor; [|constructor]); [cbn; lia|reflexivity].
Qed.
Lemma mapo_total {A B} (f : A -> option B) (P : B -> Prop) l : (forall a, exists b, f a = Some b /\ P b) -> exists r, mapo f l = Some r /\ Forall P r.
Proof.
  intro H. induction l as [|a l (r & E & F)]; [exists []; split; [reflexivity|constructor]|]. destruct (H a) as (b & Eb & Pb). cbn [mapo]. rewrite Eb, E. eauto.
Qed.
Lemma codes_of_total ex t : exists cs, codes_of ex t = Some cs /\ all_pos (bits (concat cs)) /\ code0 (bits (concat cs)).
Proof.
  unfold EllModel.codes_of. destruct (scan_total (length t) (S (length t)) (fresh TNone 0) t) as (l & E); [apply parse_total|]. unfold EllModel.scan_all. rewrite E.
  destruct (mapo_total (bits_of ce wcw ex) (fun l => all_pos (bits l) /\ code0 (bits l)) l (bits_of_total ex)) as (cs & E2 & F). exists cs. split; [exact E2|]. clear E2. induction F as [|c cs [A B] F [IH1 IH2]]; [split; constructor|]. cbn [concat]. rewrite bits_app. split; apply Forall_app; split; assumption.
Qed.
Lemma measure_total ex t : exists n, measure ex t = Some n /\ (0 <= n)%Z.
Proof. unfold EllModel.measure. destruct (codes_of_total ex t) as (cs & E & P & _). rewrite E. eexists. split; [reflexivity|]. exact (width_pos _ P). Qed.
Lemma e_cells_total e : exists n, e_cells ce wcw e = Some n /\ (0 <= n)%Z.
Proof. destruct e as [e|]; [apply (measure_total false e)|]. exists 1%Z. split; [reflexivity|lia]. Qed.

(** RIGHT *)
Lemma ex_right_S fuel t limit e ex : ex_right ce wcw (S fuel) t limit e ex =
    match codes_of ex t, e_cells ce wcw e with
    | Some cs, Some ec =>
      if (width (bits (concat cs)) <=? limit)%Z then Some (t, width (bits (concat cs)), false)
      else
        match rcodes limit ec (map bits cs) 0 [] None with
        | More v out _ => Some (out, v, false)
        | Cut v out =>
          if (0 <? limit - v)%Z then
            match ex_right ce wcw fuel (e_text e) (limit - v) (Some []) ex with
            | None => None
            | Some (eo, w, _) => Some (out ++ eo, (v + w)%Z, true)
            end
          else Some (out, v, true)
        | Bad => None
        end
    | _, _ => None
    end.
Proof. reflexivity. Qed.
Lemma right_empty fuel limit e ex : (0 <= limit)%Z -> ex_right ce wcw (S fuel) [] limit e ex = Some ([], 0%Z, false).
Proof.
  intro H. rewrite ex_right_S. destruct (e_cells_total e) as (n & -> & _). assert (E : codes_of ex [] = Some []) by (destruct ex; reflexivity). rewrite E. cbn [concat bits map width fold_right]. replace (0 <=? limit)%Z with true by lia. reflexivity.
Qed.
Lemma e_nil : e_cells ce wcw (Some []) = Some 0%Z. Proof. reflexivity. Qed.
(** with an empty ellipsis *)
Lemma right_plain fuel t limit ex : (0 <= limit)%Z -> exists cs, codes_of ex t = Some cs /\ all_pos (bits (concat cs)) /\
  let l := bits (concat cs) in
  if (width l <=? limit)%Z then ex_right ce wcw (S (S fuel)) t limit (Some []) ex = Some (t, width l, false)
  else exists k, cut_at limit 0 l 0 k /\ ex_right ce wcw (S (S fuel)) t limit (Some []) ex = Some (text (firstn k l), width (firstn k l), true).
Proof.
  intro Hl. destruct (codes_of_total ex t) as (cs & E & P & C). exists cs. split; [exact E|]. split; [exact P|]. cbv zeta. rewrite ex_right_S, e_nil, E.
  destruct (width (bits (concat cs)) <=? limit)%Z eqn:Ew; [reflexivity|]. rewrite bits_concat in P, C, Ew |- *. pose proof (rcodes_spec limit 0 ltac:(lia) (map bits cs) P C Hl) as H. rewrite Ew in H. destruct H as (k & K & H). exists k. split; [exact K|]. rewrite H.
  destruct (0 <? limit - width (firstn k (concat (map bits cs))))%Z eqn:E0; [|reflexivity]. cbn [e_text]. rewrite right_empty by lia. rewrite app_nil_r, Z.add_0_r. reflexivity.
Qed.
(** the ellipsis, or as much of it as fits *)
Definition fit (ex : bool) (e : list N) (room : Z) (eo : list N) (w : Z) : Prop :=
  (0 <= w <= Z.max 0 room)%Z /\ (measure ex e = Some w /\ eo = e \/ (exists m, measure ex e = Some m /\ (room < m)%Z) /\ exists cs k, codes_of ex e = Some cs /\ eo = text (firstn k (bits (concat cs))) /\ w = width (firstn k (bits (concat cs)))).
Lemma cut_le l limit e v k : cut_at limit e l v k -> (v + width (firstn k l) <= Z.max v (limit - e))%Z.
Proof. intros (b & _ & _ & _ & H). exact H. Qed.
Lemma all_pos_firstn k l : all_pos l -> all_pos (firstn k l).
Proof. unfold all_pos. intro H. apply Forall_forall. intros x I. rewrite Forall_forall in H. apply H. rewrite <- (firstn_skipn k l). apply in_or_app. left. exact I. Qed.
Lemma right_fit fuel e room ex : (0 < room)%Z -> exists eo w tr, ex_right ce wcw (S (S fuel)) e room (Some []) ex = Some (eo, w, tr) /\ fit ex e room eo w.
Proof.
  intro H. destruct (right_plain fuel e room ex ltac:(lia)) as (cs & E & P & R). cbv zeta in R. pose proof (width_pos _ P) as P0. assert (M : measure ex e = Some (width (bits (concat cs)))) by (unfold EllModel.measure; rewrite E; reflexivity).
  destruct (width (bits (concat cs)) <=? room)%Z eqn:Ew.
  - exists e, (width (bits (concat cs))), false. split; [exact R|]. split; [lia|]. left. auto.
  - destruct R as (k & K & R). eexists _, _, _. split; [exact R|]. pose proof (cut_le _ _ _ _ _ K). pose proof (width_pos _ (all_pos_firstn k _ P)). split; [lia|]. right. split; [exists (width (bits (concat cs))); split; [exact M|lia]|]. exists cs, k. auto.
Qed.
Lemma right_spec t limit e ex : (0 <= limit)%Z -> exists cs ec, codes_of ex t = Some cs /\ all_pos (bits (concat cs)) /\ e_cells ce wcw e = Some ec /\
  let l := bits (concat cs) in
  if (width l <=? limit)%Z then right_ ce wcw t limit e ex = Some (t, width l, false)
  else exists k eo w, cut_at limit ec l 0 k /\ right_ ce wcw t limit e ex = Some (text (firstn k l) ++ eo, (width (firstn k l) + w)%Z, true) /\
     (0 <= w)%Z /\ (width (firstn k l) + w <= limit)%Z /\ ((0 < limit - width (firstn k l))%Z -> fit ex (e_text e) (limit - width (firstn k l)) eo w).
Proof.
  intro Hl. destruct (codes_of_total ex t) as (cs & E & P & C). destruct (e_cells_total e) as (ec & Ec & Pe). exists cs, ec. split; [exact E|]. split; [exact P|]. split; [exact Ec|]. cbv zeta. unfold right_. rewrite ex_right_S, E, Ec.
  destruct (width (bits (concat cs)) <=? limit)%Z eqn:Ew; [reflexivity|]. rewrite bits_concat in P, C, Ew |- *. pose proof (rcodes_spec limit ec Pe (map bits cs) P C Hl) as H. rewrite Ew in H. destruct H as (k & K & H). exists k.
  pose proof (cut_le _ _ _ _ _ K) as Kl. pose proof (width_pos _ (all_pos_firstn k _ P)) as P0. destruct (0 <? limit - width (firstn k (concat (map bits cs))))%Z eqn:E0.
  - destruct (right_fit 0 (e_text e) (limit - width (firstn k (concat (map bits cs)))) ex ltac:(lia)) as (eo & w & tr & Er & F). exists eo, w. split; [exact K|].
    split; [|split; [destruct F as [F _]; lia|split; [destruct F as [F _]; lia|intros _; exact F]]]. rewrite H, E0, Er. reflexivity.
  - exists [], 0%Z. split; [exact K|]. split; [rewrite H, E0, app_nil_r, Z.add_0_r; reflexivity|]. split; [lia|]. split; [lia|]. intro. lia.
Qed.

(** LEFT *)
Lemma all_pos_rev l : all_pos l -> all_pos (rev l). Proof. apply Forall_rev. Qed.
Lemma width_rev l : width (rev l) = width l.
Proof. induction l as [|b l IH]; [reflexivity|]. cbn [rev]. rewrite width_app, !width_cons, IH. cbn. lia. Qed.
Lemma left_spec t limit e ex : (0 <= limit)%Z -> exists cs ec, codes_of ex t = Some cs /\ all_pos (bits (concat cs)) /\ e_cells ce wcw e = Some ec /\
  let runs := concat cs in let l := bits runs in
  if (width l <=? limit)%Z then left_ ce wcw t limit e ex = Some (t, width l, false)
  else exists j eo w, let k := (length l - j)%nat in cut_at limit ec (rev l) 0 j /\
     left_ ce wcw t limit e ex = Some (flat_map (fun r : bit * nat => if is_chars (fst r) then [] else sub t (snd r) (length (btext (fst r)))) (firstn k runs) ++ eo ++ match skipn k runs with [] => [] | r :: _ => skipn (snd r) t end, (width (skipn k l) + w)%Z, true) /\
     (0 <= w)%Z /\ (0 <= width (skipn k l))%Z /\ (width (skipn k l) + w <= limit)%Z /\ ((0 < limit - width (skipn k l))%Z -> fit ex (e_text e) (limit - width (skipn k l)) eo w).
Proof.
  intro Hl. destruct (codes_of_total ex t) as (cs & E & P & C). destruct (e_cells_total e) as (ec & Ec & Pe). exists cs, ec. split; [exact E|]. split; [exact P|]. split; [exact Ec|]. cbv zeta. unfold left_. rewrite E, Ec. cbv zeta. unfold sum_cells. fold (width (bits (concat cs))).
  destruct (width (bits (concat cs)) <=? limit)%Z eqn:Ew; [reflexivity|]. set (l := bits (concat cs)) in *.
  pose proof (lloop_spec limit ec Pe (rev l) 0 (all_pos_rev _ P) (Forall_rev C) Hl) as H. rewrite width_rev, Z.add_0_l, Ew in H. destruct H as (j & K & H). rewrite rev_length, Z.add_0_l in H. exists j.
  assert (Es : width (firstn j (rev l)) = width (skipn (length l - j) l)) by (rewrite firstn_rev, width_rev; reflexivity). rewrite Es in H. pose proof (cut_le _ _ _ _ _ K) as Kl. rewrite Es in Kl. pose proof (width_pos _ (all_pos_firstn j _ (all_pos_rev _ P))) as P0. rewrite Es in P0.
  destruct (0 <? limit - width (skipn (length l - j) l))%Z eqn:E0.
  - destruct (right_fit 1 (e_text e) (limit - width (skipn (length l - j) l)) ex ltac:(lia)) as (eo & w & tr & Er & F). exists eo, w. split; [exact K|].
    split; [|split; [destruct F as [F _]; lia|split; [lia|split; [destruct F as [F _]; lia|intros _; exact F]]]]. rewrite H, E0. unfold right_. rewrite Er. reflexivity.
  - exists [], 0%Z. split; [exact K|]. split; [rewrite H, E0, Z.add_0_r; reflexivity|]. split; [lia|]. split; [lia|]. split; [lia|]. intro. lia.
Qed.

(** Every mode, any text, any ellipsis: the number of cells returned is within the limit. *)
Lemma ex_bound t limit m e ex : (0 <= limit)%Z -> exists out n tr, ellipsify_ex ce wcw t limit m e ex = Some (out, n, tr) /\ (0 <= n <= limit)%Z.
Proof.
  intro Hl. assert (R : forall ex, exists out n tr, right_ ce wcw t limit e ex = Some (out, n, tr) /\ (0 <= n <= limit)%Z).
  { clear ex. intro ex. destruct (right_spec t limit e ex Hl) as (cs & ec & E & P & Ec & H). cbv zeta in H. destruct (width (bits (concat cs)) <=? limit)%Z eqn:Ew; [exists t, (width (bits (concat cs))), false; split; [exact H|pose proof (width_pos _ P); lia]|].
    destruct H as (k & eo & w & K & H & W1 & W2 & _). eexists _, _, _. split; [exact H|]. pose proof (width_pos _ (all_pos_firstn k _ P)). lia. }
  assert (L : forall t limit ex, (0 <= limit)%Z -> exists out n tr, left_ ce wcw t limit e ex = Some (out, n, tr) /\ (0 <= n <= limit)%Z).
  { clear. intros t limit ex Hl. destruct (left_spec t limit e ex Hl) as (cs & ec & E & P & Ec & H). cbv zeta in H. destruct (width (bits (concat cs)) <=? limit)%Z eqn:Ew; [exists t, (width (bits (concat cs))), false; split; [exact H|pose proof (width_pos _ P); lia]|].
    destruct H as (j & eo & w & K & H & W1 & W2 & W3 & _). eexists _, _, _. split; [exact H|]. lia. }
  destruct m; [apply R|apply L; exact Hl|]. cbn [ellipsify_ex]. unfold path_. destruct (codes_of_total ex t) as (cs & E & P & C). destruct (e_cells_total e) as (ec & Ec & Pe). rewrite E, Ec.
  assert (exists sc, EllModel.scan_all t = Some sc) as (sc & Es) by (apply scan_total; apply parse_total). rewrite Es. cbv zeta. unfold sum_cells. fold (width (bits (concat cs))). destruct (width (bits (concat cs)) <=? limit)%Z eqn:Ew; [eexists _, _, _; split; [reflexivity|pose proof (width_pos _ P); lia]|].
  set (d := match drive sc 0 0 with None => _ | Some _ => _ end). destruct (measure_total false (firstn d t)) as (dc & Ed & Pd). unfold EllModel.cell_count. rewrite Ed. destruct (dc <=? limit)%Z eqn:El; [|apply R].
  destruct (L (skipn d t) (limit - dc)%Z false ltac:(lia)) as (o & n & tr & -> & Hn). destruct ((ec <=? n) && (dc + n <=? limit))%Z eqn:Ea; [|apply R]. eexists _, _, _. split; [reflexivity|]. lia.
Qed.
Lemma ellipsify_spec t limit ex : (0 <= limit)%Z -> exists cs nd, codes_of ex t = Some cs /\ all_pos (bits (concat cs)) /\ cell_count dots = Some nd /\
  let l := bits (concat cs) in
  if (width l <=? limit)%Z then ellipsify ce wcw t limit ex = Some (text l, width l)
  else exists k, cut_at limit 1 l 0 k /\ ellipsify ce wcw t limit ex = Some (text (firstn k l) ++ dots, (width (firstn k l) + nd)%Z).
Proof.
  intro Hl. destruct (codes_of_total ex t) as (cs & E & P & C). destruct (measure_total false dots) as (nd & En & _). exists cs, nd. split; [exact E|]. split; [exact P|]. split; [exact En|]. cbv zeta. unfold ellipsify. rewrite E. unfold EllModel.cell_count. rewrite En.
  rewrite bits_concat in P, C |- *. pose proof (rcodes_spec limit 1 ltac:(lia) (map bits cs) P C Hl) as H. destruct (width (concat (map bits cs)) <=? limit)%Z.
  - destruct H as (tr & ->). reflexivity.
  - destruct H as (k & K & H). exists k. split; [exact K|]. rewrite H. reflexivity.
Qed.
End Ell.
