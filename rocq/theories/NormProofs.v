(** Proofs about normalise. *)
From Verif Require Import Base CmpModel CmpSpec CmpProofs PathModel PathProofs NormSpec.

Lemma eqb_name_ok a b : eqb_name a b = true <-> a = b.
Proof. unfold eqb_name. destruct (list_eq_dec N.eq_dec a b); split; congruence. Qed.
Lemma eqb_name_no a b : eqb_name a b = false <-> a <> b.
Proof. unfold eqb_name. destruct (list_eq_dec N.eq_dec a b); split; congruence. Qed.

Lemma elems_exist p : Forall (fun c => c <> 0%N) p -> exists es, elems p es.
Proof.
  intro Hz. remember (length p) as n eqn:En. assert (Hn : length p <= n) by lia. clear En.
  revert p Hz Hn. induction n as [|n IH]; intros p Hz Hn.
  { destruct p; [|cbn in Hn; lia]. exists []. constructor. }
  destruct p as [|x p0]; [exists []; constructor|]. set (p := x :: p0) in *.
  destruct (skip_sep_split p) as (s & Es & Hs & Hns). destruct (skip_nonsep_split (skip_sep p)) as (m & Em & Hm & Hr).
  destruct m as [|y m].
  - assert (Esp : skip_sep p = []).
    { destruct Hr as [Hr|Hr]; [rewrite Em, Hr; reflexivity|]. cbn [app] in Em. rewrite <- Em in Hr. congruence. }
    rewrite Esp, app_nil_r in Es. exists [([], false)]. apply EL_seps; [discriminate|rewrite Es; exact Hs].
  - destruct (skip_nonsep (skip_sep p)) as [|c r] eqn:Er.
    + rewrite app_nil_r in Em. exists [(y :: m, false)]. rewrite Es, Em. apply EL_last; [exact Hs|]. split; [discriminate|exact Hm].
    + destruct Hr as [Hr|Hr]; [discriminate|]. change (is_separator c = true) in Hr. apply sep_b in Hr.
      assert (Hl : length r <= n).
      { apply (f_equal (@length N)) in Es. rewrite app_length in Es. rewrite Em in Es. rewrite app_length in Es. cbn [length] in Es. lia. }
      assert (Hzr : Forall (fun c => c <> 0%N) r).
      { rewrite Es in Hz. apply Forall_app in Hz as [_ Hz]. rewrite Em in Hz. apply Forall_app in Hz as [_ Hz]. exact (Forall_inv_tail Hz). }
      destruct (IH r Hzr Hl) as [es Hes]. exists ((y :: m, true) :: es). rewrite Es, Em. apply EL_more; auto. split; [discriminate|exact Hm].
Qed.

(** ** The pieces of the loop *)
Lemma nosep_at0 n l : proper n -> sep_at (n ++ l) 0 = false.
Proof. intros [Hn Hs]. destruct n as [|c n]; [contradiction|]. apply nsep_b. exact (Forall_inv Hs). Qed.

Lemma next_last s n : allsep s -> proper n -> next_element (s ++ n) = Some [] /\ skip_sep (s ++ n) = n.
Proof.
  intros Hs Hn. assert (E : skip_sep (s ++ n) = n).
  { rewrite skip_sep_app by auto. apply skip_sep_id. rewrite <- (app_nil_r n). apply nosep_at0; auto. }
  split; [|exact E]. unfold next_element. rewrite E.
  assert (E2 : skip_nonsep n = []) by (rewrite <- (app_nil_r n), skip_nonsep_app by apply Hn; reflexivity).
  rewrite E2. destruct (s ++ n) eqn:Ex; [|reflexivity]. apply app_eq_nil in Ex as [_ ->]. destruct Hn as [Hn _]. contradiction.
Qed.
Lemma next_more s n c r : allsep s -> proper n -> sep c ->
  next_element (s ++ n ++ c :: r) = Some r /\ skip_sep (s ++ n ++ c :: r) = n ++ c :: r.
Proof.
  intros Hs Hn Hc. assert (E : skip_sep (s ++ n ++ c :: r) = n ++ c :: r).
  { rewrite skip_sep_app by auto. apply skip_sep_id. apply nosep_at0; auto. }
  split; [|exact E]. unfold next_element. rewrite E. rewrite skip_nonsep_app by apply Hn.
  cbn [skip_nonsep]. apply sep_b in Hc. rewrite Hc. cbn [tl].
  destruct (s ++ n ++ c :: r) eqn:Ex; [|reflexivity]. apply app_eq_nil in Ex as [_ Ex]. apply app_eq_nil in Ex as [_ Ex]. discriminate.
Qed.
Lemma next_seps s : s <> [] -> allsep s -> next_element s = Some [] /\ skip_sep s = [].
Proof.
  intros Hne Hs. assert (E : skip_sep s = []) by (rewrite <- (app_nil_r s), skip_sep_app by auto; reflexivity).
  split; [|exact E]. unfold next_element. rewrite E. destruct s; [contradiction|reflexivity].
Qed.

Lemma copy_ok sepc bytes : forall rd out, length out <= rd ->
  copy_bytes sepc bytes rd out = Some (rev (map (fun c => if is_separator c then sepc else c) bytes) ++ out).
Proof.
  induction bytes as [|c l IH]; intros rd out H; cbn [copy_bytes map rev]; [reflexivity|].
  destruct (Nat.ltb_spec rd (length out)); [lia|]. rewrite IH by (cbn [length]; lia). rewrite <- app_assoc. reflexivity.
Qed.
Lemma map_nosep sepc n : nosep n -> map (fun c => if is_separator c then sepc else c) n = n.
Proof.
  induction 1 as [|c n Hc Hn IH]; [reflexivity|]. cbn [map]. apply nsep_b in Hc. rewrite Hc, IH. reflexivity.
Qed.

(** Taking back one element. *)
Lemma back_up_elem start x out : start <= length out -> out = [] \/ sep_at out 0 = true ->
  forall n, nosep n -> forall fuel c, length n < fuel ->
  back_up fuel (Some x) start (c :: n ++ out) = Some out.
Proof.
  intros Hst Hout n Hn. induction Hn as [|y n Hy Hn IH]; intros fuel c Hf.
  - destruct fuel as [|k]; [cbn in Hf; lia|]. cbn [back_up app length tl]. destruct (Nat.ltb_spec start (S (length out))); [|lia].
    destruct out as [|o out].
    + destruct (is_separator x); [reflexivity|]. destruct k; [reflexivity|]. cbn [back_up length].
      destruct (Nat.ltb_spec start 0); [lia|reflexivity].
    + destruct Hout as [K|K]; [discriminate|]. change (is_separator o = true) in K. rewrite K. reflexivity.
  - destruct fuel as [|k]; [lia|]. cbn [back_up app length tl]. destruct (Nat.ltb_spec start (S (S (length (n ++ out))))) as [|Hge]; [|rewrite app_length in Hge; lia].
    apply nsep_b in Hy. rewrite Hy. apply IH. cbn [length] in Hf. lia.
Qed.

(** Which names are special. *)
Lemma classify n t : proper n -> Forall (fun c => c <> 0%N) n -> t = [] \/ sep_at t 0 = true ->
  (at_ (n ++ t) 0 =? 46)%N = dot_name n /\
  (dot_name n = true ->
   let two := (at_ (n ++ t) 1 =? 46)%N in let c := at_ (n ++ t) (if two then 2 else 1) in
   (is_separator c || (c =? 0)%N = eqb_name n dot || eqb_name n dotdot) /\
   (eqb_name n dot = true -> two = false) /\ (eqb_name n dotdot = true -> two = true)).
Proof.
  intros [Hne Hs] Hz Ht. destruct n as [|a n]; [contradiction|]. split; [reflexivity|]. cbn [dot_name]. intro Ha. apply N.eqb_eq in Ha. subst a.
  assert (Hty : is_separator (at_ t 0) || (at_ t 0 =? 0)%N = true).
  { destruct Ht as [->|Ht]; [reflexivity|]. unfold sep_at in Ht. rewrite Ht. reflexivity. }
  assert (Hnd : at_ t 0 <> 46%N).
  { destruct Ht as [->|Ht]; [discriminate|]. unfold sep_at in Ht. intro K. rewrite K in Ht. discriminate. }
  assert (Hch : forall y, In y n -> is_separator y || (y =? 0)%N = false).
  { intros y Hy. apply orb_false_iff. split.
    - apply nsep_b. rewrite Forall_forall in Hs. apply Hs. right. exact Hy.
    - apply N.eqb_neq. rewrite Forall_forall in Hz. apply Hz. right. exact Hy. }
  assert (Eq : forall a b : list N, eqb_name a b = eqb_name a b) by reflexivity. clear Eq.
  destruct n as [|b n].
  - change (at_ ([46%N] ++ t) 1) with (at_ t 0). apply N.eqb_neq in Hnd. rewrite Hnd. cbv zeta. cbn [app]. change (at_ (46%N :: t) 1) with (at_ t 0).
    rewrite Hty. split; [reflexivity|]. split; [reflexivity|]. intro K. apply eqb_name_ok in K. discriminate.
  - change (at_ ((46%N :: b :: n) ++ t) 1) with b. destruct (N.eqb_spec b 46) as [->|Hb]; cbv zeta.
    + destruct n as [|d n].
      * change (at_ ([46%N; 46%N] ++ t) 2) with (at_ t 0). rewrite Hty. split; [reflexivity|]. split; [|reflexivity]. intro K. apply eqb_name_ok in K. discriminate.
      * change (at_ ((46%N :: 46%N :: d :: n) ++ t) 2) with d. rewrite (Hch d) by (right; left; reflexivity).
        replace (eqb_name _ dot) with false by (symmetry; apply eqb_name_no; discriminate).
        replace (eqb_name _ dotdot) with false by (symmetry; apply eqb_name_no; discriminate). split; [reflexivity|]. split; discriminate.
    + change (at_ ((46%N :: b :: n) ++ t) 1) with b. rewrite (Hch b) by (left; reflexivity).
      assert (E1 : eqb_name (46%N :: b :: n) dot = false) by (apply eqb_name_no; discriminate).
      assert (E2 : eqb_name (46%N :: b :: n) dotdot = false) by (apply eqb_name_no; unfold dotdot; congruence).
      rewrite E1, E2. split; [reflexivity|]. split; discriminate.
Qed.

(** ** The loop *)
Definition good (e : elem) : Prop := snd e = true /\ proper (fst e).
Definition rb (sepc : N) (root : bool) : list N := if root then [sepc] else [].
Definition rtext sepc root stack : list N := rev (rb sepc root ++ join sepc (rev stack)).

Lemma rtext_head sepc root stack : sep sepc -> Forall good stack ->
  rtext sepc root stack = [] \/ sep_at (rtext sepc root stack) 0 = true.
Proof.
  intros Hs Hg. unfold rtext. destruct stack as [|e stack].
  - cbn [rev join flat_map]. rewrite app_nil_r. destruct root; [right; apply sep_b; exact Hs|left; reflexivity].
  - right. apply Forall_inv in Hg as [Ht _]. cbn [rev]. unfold join. rewrite flat_map_app. cbn [flat_map]. rewrite Ht, app_nil_r.
    rewrite !app_assoc. rewrite rev_app_distr. cbn [rev app]. apply sep_b. exact Hs.
Qed.

Lemma rtext_push sepc root stack e :
  rtext sepc root (e :: stack) = rev (fst e ++ if snd e then [sepc] else []) ++ rtext sepc root stack.
Proof.
  unfold rtext. cbn [rev]. unfold join. rewrite flat_map_app. cbn [flat_map]. rewrite app_nil_r, app_assoc, rev_app_distr. reflexivity.
Qed.
Lemma rtext_root sepc root stack : length (rb sepc root) <= length (rtext sepc root stack).
Proof. unfold rtext. rewrite rev_length, app_length. lia. Qed.
Lemma rtext_empty sepc root stack : Forall good stack -> length (rtext sepc root stack) = 0 -> root = false /\ stack = [].
Proof.
  intros Hg H. pose proof (rtext_root sepc root stack). split; [destruct root; [cbn in *; lia|reflexivity]|].
  destruct stack as [|e stack]; [reflexivity|]. rewrite rtext_push, app_length, rev_length, app_length in H.
  apply Forall_inv in Hg as [_ [Hp _]]. destruct (fst e); [contradiction|cbn [length] in H; lia].
Qed.

Lemma back_up_ok sepc x unc root stack : sep sepc -> Forall good stack -> (unc = true -> root = false -> stack = []) ->
  let start := if unc then 0 else length (rb sepc root) in
  back_up (length (rtext sepc root stack)) (Some x) start (rtext sepc root stack) =
  Some (rtext sepc (match stack with [] => root && negb unc | _ => root end) (tl stack)).
Proof.
  intros Hs Hg Hu start. destruct stack as [|e stack].
  - cbn [tl]. unfold rtext. cbn [rev join flat_map]. rewrite !app_nil_r. subst start. destruct root, unc; cbn [rb negb andb rev app length back_up].
    + cbn [Nat.ltb Nat.leb tl]. destruct (is_separator x); reflexivity.
    + reflexivity.
    + reflexivity.
    + reflexivity.
  - cbn [tl]. rewrite rtext_push. destruct (Forall_inv Hg) as [Ht Hp]. rewrite Ht. rewrite rev_app_distr. cbn [rev app].
    apply Forall_inv_tail in Hg. apply back_up_elem.
    + subst start. destruct unc; [lia|apply rtext_root].
    + apply rtext_head; auto.
    + unfold nosep. apply Forall_rev. apply Hp.
    + cbn [length]. rewrite app_length. lia.
Qed.

Definition cnt_ok (scount : option nat) (count : N) (rest : list N) : Prop :=
  match scount with None => (N.of_nat (length rest) <= count)%N | Some k => count = N.of_nat k end.

Lemma push_step sepc unc root stack n f bytes rd total (next : list N) :
  sep sepc -> Forall good stack -> proper n -> (unc = true -> root = false -> stack = []) ->
  (bytes = n /\ f = false \/ exists c, bytes = n ++ [c] /\ sep c /\ f = true) ->
  length (rtext sepc root stack) <= rd -> (unc = true -> 1 <= rd) -> rd + length bytes + length next <= total ->
  let out := rtext sepc root stack in
  let start := if unc then 0 else length (rb sepc root) in
  let add := unc && Nat.eqb (length out) start in
  (add && negb (Nat.ltb (length out) rd) = false) /\
  copy_bytes sepc bytes rd (if add then sepc :: out else out) = Some (rtext sepc (root || unc) ((n, f) :: stack)) /\
  length (rtext sepc (root || unc) ((n, f) :: stack)) + length next <= total.
Proof.
  intros Hsep Hg Hn Hroot Hb Hrd Hrd1 Htot out start add.
  assert (Hmap : map (fun c => if is_separator c then sepc else c) bytes = n ++ if f then [sepc] else []).
  { destruct Hb as [[-> ->]|(c & -> & Hc & ->)]; [rewrite app_nil_r; apply map_nosep; apply Hn|].
    rewrite map_app, map_nosep by apply Hn. cbn [map]. apply sep_b in Hc. rewrite Hc. reflexivity. }
  assert (Hbl : length bytes = length (n ++ if f then [sepc] else [])) by (rewrite <- Hmap, map_length; reflexivity).
  assert (Ho : (if add then sepc :: out else out) = rtext sepc (root || unc) stack /\ length (if add then sepc :: out else out) <= rd /\ add && negb (Nat.ltb (length out) rd) = false).
  { destruct add eqn:Ea.
    - unfold add in Ea. apply andb_true_iff in Ea as [Eu Ea]. apply Nat.eqb_eq in Ea. unfold start in Ea. rewrite Eu in *.
      destruct (rtext_empty _ _ _ Hg Ea) as [-> ->]. change out with (@nil N). specialize (Hrd1 eq_refl). cbn [length]. split; [reflexivity|]. split; [lia|].
      destruct (Nat.ltb_spec 0 rd); [reflexivity|lia].
    - split; [|split; [exact Hrd|reflexivity]]. unfold out. f_equal. destruct root; [reflexivity|]. cbn [orb]. destruct unc; [|reflexivity].
      exfalso. unfold add, out, start in Ea. rewrite (Hroot eq_refl eq_refl) in Ea. discriminate. }
  destruct Ho as (Ho1 & Ho2 & Ho3). split; [exact Ho3|].
  rewrite copy_ok by exact Ho2. rewrite Hmap, rtext_push, Ho1. cbn [fst snd]. split; [reflexivity|].
  rewrite Ho1 in Ho2. rewrite app_length, rev_length. lia.
Qed.

Lemma elem_step sepc unc dots eat x total k start count scount root stack rest n t next f :
  sep sepc -> Forall good stack -> (unc = true -> root = false -> stack = []) ->
  let out := rtext sepc root stack in
  start = (if unc then 0 else length (rb sepc root)) ->
  length out + length rest <= total -> (unc = true -> length rest < total) ->
  (count + N.of_nat (length rest) < 4294967296)%N -> cnt_ok scount count rest ->
  proper n -> Forall (fun c => c <> 0%N) n -> next_element rest = Some next -> skip_sep rest = n ++ t ->
  (t = [] /\ next = [] /\ f = false \/ exists c, t = c :: next /\ sep c /\ f = true) ->
  exists count' scount' root' stack',
  nstep unc dots eat (scount, root, stack) (n, f) = (scount', root', stack') /\
  norm_loop (S k) sepc unc dots eat (Some x) start total count out rest =
  norm_loop k sepc unc dots eat (Some x) start total count' (rtext sepc root' stack') next /\
  (f = true -> Forall good stack') /\ (unc = true -> root' = false -> stack' = []) /\ (unc = false -> root' = root) /\
  length (rtext sepc root' stack') + length next <= total /\
  (count' + N.of_nat (length next) < 4294967296)%N /\ cnt_ok scount' count' next /\ length next < length rest.
Proof.
  intros Hsep Hg Hroot out Hst Htot Hunc Hov Hcnt Hn Hz Hnext Hskip Ht.
  destruct (skip_sep_split rest) as (s & Es & Hs & _). rewrite Hskip in Es.
  assert (Hn1 : 1 <= length n) by (destruct Hn as [Hn _]; destruct n; [contradiction|cbn [length]; lia]).
  assert (Hlen : length rest = length s + length n + length t) by (rewrite Es, !app_length; lia).
  assert (Htn : length next <= length t) by (destruct Ht as [(-> & -> & _)|(c & -> & _)]; cbn [length]; lia).
  assert (Htb : t = [] \/ sep_at t 0 = true) by (destruct Ht as [(-> & _)|(c & -> & Hc & _)]; [left; reflexivity|right; apply sep_b; exact Hc]).
  assert (Hbytes : let b := firstn (length (n ++ t) - length next) (n ++ t) in
                   (b = n /\ f = false \/ exists c, b = n ++ [c] /\ sep c /\ f = true) /\ length b + length next = length n + length t).
  { cbv zeta. destruct Ht as [(-> & -> & ->)|(c & -> & Hc & ->)].
    - rewrite app_nil_r, Nat.sub_0_r, firstn_all. split; [left; auto|cbn [length]; lia].
    - replace (n ++ c :: next) with ((n ++ [c]) ++ next) by (rewrite <- app_assoc; reflexivity). rewrite app_length.
      replace (length (n ++ [c]) + length next - length next) with (length (n ++ [c]) + 0) by lia. rewrite firstn_app_2. cbn [firstn]. rewrite app_nil_r.
      split; [right; exists c; auto|rewrite app_length; cbn [length]; lia]. }
  cbv zeta in Hbytes. set (b := firstn (length (n ++ t) - length next) (n ++ t)) in *. destruct Hbytes as [Hb Hbl].
  destruct (push_step sepc unc root stack n f b (total - length (n ++ t)) total next) as (P1 & P2 & P3); auto.
  { rewrite app_length. fold out. lia. }
  { intro E. specialize (Hunc E). rewrite app_length. lia. }
  { rewrite app_length. lia. }
  cbv zeta in P1, P2. rewrite <- Hst in P1, P2. fold out in P1, P2.
  destruct (classify n t Hn Hz Htb) as [C1 C2]. cbv zeta in C2.
  assert (Hne : eqb_name n [] = false) by (apply eqb_name_no; apply Hn).
  assert (Hgood : f = true -> Forall good ((n, f) :: stack)) by (intros ->; constructor; [split; [reflexivity|exact Hn]|exact Hg]).
  assert (Hpush : forall cnt, (count <= cnt <= count + 1)%N ->
    norm_loop (S k) sepc unc dots eat (Some x) start total count out rest =
      (if unc && Nat.eqb (length out) start && negb (Nat.ltb (length out) (total - length (n ++ t))) then None
       else match copy_bytes sepc b (total - length (n ++ t)) (if unc && Nat.eqb (length out) start then sepc :: out else out) with
            | None => None
            | Some out' => norm_loop k sepc unc dots eat (Some x) start total cnt out' next
            end) ->
    norm_loop (S k) sepc unc dots eat (Some x) start total count out rest =
      norm_loop k sepc unc dots eat (Some x) start total cnt (rtext sepc (root || unc) ((n, f) :: stack)) next).
  { intros cnt _ ->. rewrite P1, P2. reflexivity. }
  assert (Hroot2 : unc = true -> root || unc = false -> (n, f) :: stack = []) by (intros ->; rewrite orb_true_r; discriminate).
  assert (Hroot3 : unc = false -> root || unc = root) by (intros ->; apply orb_false_r).
  unfold nstep. cbv zeta. cbn [fst]. rewrite Hne.
  destruct (dots && eqb_name n dot) eqn:Ed; [|destruct (dots && eqb_name n dotdot) eqn:Edd].
  - (* . *)
    apply andb_true_iff in Ed as [-> Ed]. assert (Hdn : dot_name n = true) by (apply eqb_name_ok in Ed; subst n; reflexivity).
    specialize (C2 Hdn). destruct C2 as (C2 & C3 & _). rewrite Ed in C2. cbn [orb] in C2. specialize (C3 Ed).
    exists count, scount, root, stack. split; [reflexivity|]. split.
    { cbn [norm_loop]. rewrite Hnext, Hskip, C1, Hdn. cbn [andb]. rewrite C2. rewrite C3. reflexivity. }
    split; [auto|]. split; [exact Hroot|]. split; [auto|]. fold out. split; [lia|]. split; [lia|]. split; [|lia].
    unfold cnt_ok in *. destruct scount; lia.
  - (* .. *)
    apply andb_true_iff in Edd as [-> Edd]. cbn [andb] in Ed. assert (Hdn : dot_name n = true) by (apply eqb_name_ok in Edd; subst n; reflexivity).
    specialize (C2 Hdn). destruct C2 as (C2 & _ & C4). rewrite Ed, Edd in C2. cbn [orb] in C2. specialize (C4 Edd).
    destruct (N.eqb_spec count 0) as [E0|E0].
    + assert (Esc : scount = Some 0) by (unfold cnt_ok in Hcnt; destruct scount; [f_equal; lia|lia]). subst scount. destruct eat.
      * exists count, (Some 0), root, stack. split; [reflexivity|]. split.
        { cbn [norm_loop]. rewrite Hnext, Hskip, C1, Hdn. cbn [andb]. rewrite C2, C4. apply N.eqb_eq in E0. rewrite E0. reflexivity. }
        split; [auto|]. split; [exact Hroot|]. split; [auto|]. fold out. split; [lia|]. split; [lia|]. split; [|lia]. exact Hcnt.
      * exists count, (Some 0), (root || unc), ((n, f) :: stack). split; [reflexivity|]. split.
        { apply Hpush; [lia|]. cbn [norm_loop]. rewrite Hnext, Hskip, C1, Hdn. cbn [andb]. rewrite C2, C4. apply N.eqb_eq in E0. rewrite E0. reflexivity. }
        split; [exact Hgood|]. split; [exact Hroot2|]. split; [exact Hroot3|]. split; [exact P3|]. split; [lia|]. split; [|lia]. exact Hcnt.
    + pose proof (back_up_ok sepc x unc root stack Hsep Hg Hroot) as Hbu. cbv zeta in Hbu. rewrite <- Hst in Hbu. fold out in Hbu.
      exists (count - 1)%N, (option_map pred scount), (match stack with [] => root && negb unc | _ => root end), (tl stack).
      split.
      { unfold cnt_ok in Hcnt. destruct scount as [[|j]|]; [lia|reflexivity|reflexivity]. }
      split.
      { cbn [norm_loop]. rewrite Hnext, Hskip, C1, Hdn. cbn [andb]. rewrite C2, C4. apply N.eqb_neq in E0. rewrite E0. cbn [negb].
        rewrite Hbu. reflexivity. }
      split; [intros _; destruct Hg; [constructor|assumption]|]. split.
      { intros Hu Hr. destruct stack as [|e stack]; [reflexivity|]. specialize (Hroot Hu Hr). discriminate. }
      split; [intros ->; destruct stack; [apply andb_true_r|reflexivity]|]. split.
      { assert (length (rtext sepc (match stack with [] => root && negb unc | _ => root end) (tl stack)) <= length out); [|lia].
        unfold out. destruct stack as [|e stack].
        - unfold rtext. cbn [tl rev join flat_map]. rewrite !app_nil_r, !rev_length. destruct root, unc; cbn; lia.
        - cbn [tl]. rewrite rtext_push, app_length. lia. }
      split; [lia|]. split; [|lia]. unfold cnt_ok in *. destruct scount as [[|j]|]; cbn [option_map pred]; lia.
  - (* a name *)
    destruct (dots && dot_name n) eqn:Edn.
    + apply andb_true_iff in Edn as [-> Hdn]. specialize (C2 Hdn). destruct C2 as (C2 & _ & _). cbn [andb] in Ed, Edd. rewrite Ed, Edd in C2. cbn [orb] in C2.
      exists count, scount, (root || unc), ((n, f) :: stack). split; [reflexivity|]. split.
      { apply Hpush; [lia|]. cbn [norm_loop]. rewrite Hnext, Hskip, C1, Hdn. cbn [andb]. rewrite C2. reflexivity. }
      split; [exact Hgood|]. split; [exact Hroot2|]. split; [exact Hroot3|]. split; [exact P3|]. split; [lia|]. split; [|lia].
      unfold cnt_ok in *. destruct scount; lia.
    + exists (count + 1)%N, (option_map S scount), (root || unc), ((n, f) :: stack). split; [reflexivity|]. split.
      { apply Hpush; [lia|]. cbn [norm_loop]. rewrite Hnext, Hskip, C1. rewrite andb_comm, Edn. rewrite N.mod_small by lia. reflexivity. }
      split; [exact Hgood|]. split; [exact Hroot2|]. split; [exact Hroot3|]. split; [exact P3|]. split; [lia|]. split; [|lia].
      unfold cnt_ok in *. destruct scount; cbn [option_map]; lia.
Qed.

Lemma loop_ok sepc unc dots eat x total : sep sepc -> forall rest es, elems rest es -> Forall (fun c => c <> 0%N) rest ->
  forall fuel start count scount root stack,
  Forall good stack -> (unc = true -> root = false -> stack = []) ->
  let out := rtext sepc root stack in
  start = (if unc then 0 else length (rb sepc root)) ->
  length out + length rest <= total -> (unc = true -> rest <> [] -> length rest < total) ->
  length rest < fuel ->
  (count + N.of_nat (length rest) < 4294967296)%N -> cnt_ok scount count rest ->
  norm_loop fuel sepc unc dots eat (Some x) start total count out rest =
  Some (rev (ntext sepc (nfold unc dots eat es (scount, root, stack)))) /\
  length (ntext sepc (nfold unc dots eat es (scount, root, stack))) <= total.
Proof.
  intro Hsep. induction 1 as [|s Hne Hs|s n Hs Hn|s n c r es Hs Hn Hc Hes IH]; intros Hz fuel start count scount root stack Hg Hroot out Hst Htot Hunc Hfuel Hov Hcnt.
  - destruct fuel; [lia|]. split; [reflexivity|]. cbn [nfold fold_left]. unfold out, rtext in Htot. rewrite rev_length in Htot. unfold ntext. unfold rb in Htot. cbn [length] in Htot. lia.
  - (* only separators *)
    assert (Hs1 : 1 <= length s) by (destruct s; [contradiction|cbn [length]; lia]).
    destruct fuel as [|[|k]]; [lia|lia|]. cbn [norm_loop]. destruct (next_seps s Hne Hs) as [-> ->].
    change (at_ [] 0) with 0%N. cbn [N.eqb andb length firstn copy_bytes next_element Nat.sub].
    assert (Hnf : nfold unc dots eat [([], false)] (scount, root, stack) = (option_map S scount, root || unc, stack)).
    { unfold nfold. cbn [fold_left nstep fst]. replace (eqb_name [] dot) with false by (symmetry; apply eqb_name_no; discriminate).
      replace (eqb_name [] dotdot) with false by (symmetry; apply eqb_name_no; discriminate). rewrite !andb_false_r.
      replace (eqb_name [] []) with true by (symmetry; apply eqb_name_ok; reflexivity). cbn [dot_name]. rewrite ?andb_false_r. reflexivity. }
    rewrite Hnf. rewrite <- (rev_length (ntext _ _)). change (rev (ntext sepc (option_map S scount, root || unc, stack))) with (rtext sepc (root || unc) stack).
    destruct (unc && Nat.eqb (length out) start) eqn:Ea.
    + apply andb_true_iff in Ea as [Eu Ea]. apply Nat.eqb_eq in Ea. rewrite Eu in *. rewrite Hst in Ea. destruct (rtext_empty _ _ _ Hg Ea) as [-> ->].
      change out with (@nil N). cbn [length]. specialize (Hunc eq_refl Hne). destruct (Nat.ltb_spec 0 (total - 0)); [|lia]. split; [reflexivity|cbn; lia].
    + cbn [andb]. enough (Er : root || unc = root) by (rewrite Er; split; [reflexivity|fold out; lia]).
      destruct root; [reflexivity|]. cbn [orb]. destruct unc; [|reflexivity]. exfalso. subst start out. rewrite (Hroot eq_refl eq_refl) in Ea. discriminate.
  - destruct (next_last s n Hs Hn) as [N1 N2].
    assert (Hne : s ++ n <> []) by (intro K; apply app_eq_nil in K as [_ K]; destruct Hn as [Hn _]; contradiction).
    destruct fuel as [|[|k]]; [lia|destruct (s ++ n); [contradiction|cbn [length] in Hfuel; lia]|].
    assert (Hzn : Forall (fun c => c <> 0%N) n) by (apply Forall_app in Hz; apply Hz).
    rewrite <- (app_nil_r n) in N2 at 2.
    destruct (elem_step sepc unc dots eat x total (S k) start count scount root stack (s ++ n) n [] [] false Hsep Hg Hroot Hst Htot (fun E => Hunc E Hne) Hov Hcnt Hn Hzn N1 N2)
      as (count' & scount' & root' & stack' & E1 & E2 & E3); [left; auto|].
    unfold out. rewrite E2. unfold nfold. cbn [fold_left]. rewrite E1. split; [reflexivity|].
    destruct E3 as (_ & _ & _ & E6 & _). cbn [length] in E6. rewrite Nat.add_0_r in E6. rewrite <- rev_length. exact E6.
  - destruct (next_more s n c r Hs Hn Hc) as [N1 N2].
    assert (Hne : s ++ n ++ c :: r <> []) by (intro K; apply app_eq_nil in K as [_ K]; apply app_eq_nil in K as [_ K]; discriminate).
    destruct fuel as [|k]; [lia|].
    assert (Hzn : Forall (fun c => c <> 0%N) n) by (apply Forall_app in Hz as [_ Hz]; apply Forall_app in Hz; apply Hz).
    assert (Hzr : Forall (fun c => c <> 0%N) r) by (apply Forall_app in Hz as [_ Hz]; apply Forall_app in Hz as [_ Hz]; exact (Forall_inv_tail Hz)).
    destruct (elem_step sepc unc dots eat x total k start count scount root stack _ n (c :: r) r true Hsep Hg Hroot Hst Htot (fun E => Hunc E Hne) Hov Hcnt Hn Hzn N1 N2)
      as (count' & scount' & root' & stack' & E1 & E2 & E3 & E4 & E5 & E6 & E7 & E8 & E9); [right; exists c; auto|].
    unfold out. rewrite E2. unfold nfold. cbn [fold_left]. rewrite E1. apply IH; auto.
    + destruct unc; [exact Hst|]. rewrite E5 by reflexivity. exact Hst.
    + intros Hu _. specialize (Hunc Hu Hne). lia.
    + lia.
Qed.

(** ** The drive *)
Definition bnd (x past : list N) : Prop := x = [] \/ sep_at past 0 = false \/ is_separator (last x 0%N) = false.
Definition noadj (x : list N) : Prop := forall i, sep_at x i = true -> sep_at x (S i) = true -> False.

Lemma last_app_ne (a b : list N) d : b <> [] -> last (a ++ b) d = last b d.
Proof.
  intro Hb. induction a as [|x a IH]; [reflexivity|]. cbn [app last]. rewrite IH. destruct (a ++ b) eqn:E; [|reflexivity].
  apply app_eq_nil in E as [_ E]. contradiction.
Qed.
Lemma copy_drive_nil k past : copy_drive k past past = ([], past).
Proof. destruct k; [reflexivity|]. cbn [copy_drive]. rewrite Nat.ltb_irrefl. reflexivity. Qed.

Lemma copy_drive_ok past : forall fuel x, length x <= fuel -> bnd x past ->
  exists w, copy_drive fuel (x ++ past) past = (w, past) /\ length w <= length x /\ (noadj x -> w = x).
Proof.
  induction fuel as [|k IH]; intros x Hl Hb.
  - destruct x; [|cbn in Hl; lia]. exists []. split; [reflexivity|]. split; [auto|reflexivity].
  - destruct x as [|c x]; [exists []; rewrite copy_drive_nil; split; [reflexivity|]; split; [auto|reflexivity]|].
    cbn [app copy_drive length]. destruct (Nat.ltb_spec (length past) (S (length (x ++ past)))) as [_|Hge]; [|rewrite app_length in Hge; lia].
    cbn [length] in Hl. destruct (is_separator c) eqn:Ec.
    + change (c :: x ++ past) with ((c :: x) ++ past).
      destruct (skip_sep_split (c :: x)) as (s & Es & Hs & Hn). set (x' := skip_sep (c :: x)) in *.
      assert (Hs1 : exists s1, s = c :: s1 /\ x = s1 ++ x').
      { destruct s as [|d s1]; [cbn [app] in Es; rewrite <- Es in Hn; change (is_separator c = false) in Hn; congruence|].
        cbn [app] in Es. injection Es as -> Es. exists s1. auto. }
      destruct Hs1 as (s1 & -> & Ex). clear Es. clearbody x'.
      assert (Hna : noadj (c :: x) -> s1 = []).
      { intro Ha. destruct s1 as [|e s1]; [reflexivity|]. exfalso. apply (Ha 0); [exact Ec|]. rewrite Ex. apply Forall_inv_tail in Hs. apply Forall_inv in Hs.
        apply sep_b. exact Hs. }
      assert (Esk : skip_sep ((c :: x) ++ past) = x' ++ past /\ bnd x' past).
      { rewrite Ex. cbn [app]. rewrite <- app_assoc. change (c :: s1 ++ x' ++ past) with ((c :: s1) ++ x' ++ past). rewrite skip_sep_app by exact Hs.
        destruct x' as [|d x2].
        - split; [|left; reflexivity]. cbn [app]. apply skip_sep_id. destruct Hb as [Hb|[Hb|Hb]]; [discriminate|exact Hb|].
          exfalso. rewrite Ex, app_nil_r in Hb. assert (Hin : In (last (c :: s1) 0%N) (c :: s1)).
          { rewrite (app_removelast_last 0%N (l := c :: s1)) at 2 by discriminate. apply in_or_app. right. left. reflexivity. }
          unfold allsep in Hs. rewrite Forall_forall in Hs. apply Hs in Hin. apply sep_b in Hin. congruence.
        - split; [apply skip_sep_id; exact Hn|]. right. destruct Hb as [Hb|[Hb|Hb]]; [discriminate|left; exact Hb|right].
          rewrite Ex in Hb. change (c :: s1 ++ d :: x2) with ((c :: s1) ++ d :: x2) in Hb. rewrite last_app_ne in Hb by discriminate. exact Hb. }
      destruct Esk as [Esk Hb']. rewrite Esk. pose proof (f_equal (@length N) Ex) as Elen. rewrite app_length in Elen.
      destruct (IH x') as (w & Ew & Hw & Hwx); [lia|exact Hb'|]. rewrite Ew. exists (c :: w). split; [reflexivity|]. cbn [length]. split; [lia|].
      intro Ha. specialize (Hna Ha). subst s1. cbn [app] in Ex. subst x. f_equal. apply Hwx. intros i. apply (Ha (S i)).
    + destruct (IH x) as (w & Ew & Hw & Hwx); [lia| |].
      { destruct x as [|d x]; [left; reflexivity|]. right. destruct Hb as [Hb|[Hb|Hb]]; [discriminate|left; exact Hb|right; exact Hb]. }
      rewrite Ew. exists (c :: w). split; [reflexivity|]. cbn [length]. split; [lia|]. intro Ha. f_equal. apply Hwx. intro i. apply (Ha (S i)).
Qed.

Definition device (p : list N) : bool := sep_at p 0 && sep_at p 1 && (at_ p 2 =? 46)%N && sep_at p 3.
Definition lead (p : list N) : bool := sep_at p 0 && sep_at p 1.
(** No doubled separator inside the drive (the two in front aside). *)
Definition clean_drive walpha (p : list N) : Prop :=
  forall i, 2 <= i -> S i < drive_len walpha p -> sep_at p i = true -> sep_at p (S i) = true -> False.

Lemma drive_not_lead walpha p : lead p = false -> drive_len walpha p = 0 \/ drive_len walpha p = 2 /\ at_ p 1 = 58%N /\ walpha (at_ p 0) = true.
Proof.
  intro H. unfold drive_len, past_drive. unfold lead in H.
  assert (E1 : is_unc p = None). { unfold is_unc. apply andb_false_iff in H as [H|H]; rewrite H; rewrite ?orb_true_r; reflexivity. }
  assert (E2 : past_ssqs p = p). { unfold past_ssqs. apply andb_false_iff in H as [H|H]; rewrite H; destruct (sep_at p 0); reflexivity. }
  rewrite E1. cbv zeta. rewrite E2. destruct (walpha (at_ p 0)) eqn:Ew; cbn [andb]; [|left; lia]. destruct (N.eqb_spec (at_ p 1) 58); [|left; lia].
  right. split; [|auto]. rewrite skipn_length. destruct p as [|a [|b p]]; [discriminate|discriminate|]. cbn [length]. lia.
Qed.
Lemma drive_lead walpha p : lead p = true -> 0 < drive_len walpha p -> 2 <= drive_len walpha p.
Proof.
  intros H Hd. unfold lead in H. apply andb_true_iff in H as [H0 H1].
  assert (Hsk : length (skip_sep p) + 2 <= length p).
  { destruct p as [|a [|b p]]; [discriminate|discriminate|]. change (is_separator a = true) in H0. change (is_separator b = true) in H1.
    cbn [skip_sep]. rewrite H0, H1. cbn [length]. pose proof (suffix_le _ _ (suffix_skip_sep p)). lia. }
  unfold drive_len, past_drive in *. destruct (is_unc p) as [r|] eqn:E.
  - unfold is_unc in E. rewrite H0, H1 in E. cbn [negb orb] in E. cbv zeta in E.
    assert (Hr : suffix_of r (skip_sep p)).
    { repeat match type of E with (if ?b then _ else _) = Some _ => destruct b; try discriminate end; apply some_inj in E; rewrite <- E; clear E.
      - eapply suffix_trans; [apply suffix_skip_nonsep|]. eapply suffix_trans; [apply suffix_skip_sep|]. eapply suffix_trans; [apply suffix_skip_nonsep|].
        eapply suffix_trans; [apply suffix_skip_sep|]. eapply suffix_trans; [apply suffix_skipn|]. eapply suffix_trans; [apply suffix_skip_sep|]. apply suffix_tl.
      - eapply suffix_trans; [apply suffix_skip_nonsep|]. eapply suffix_trans; [apply suffix_skip_sep|]. apply suffix_skip_nonsep. }
    apply suffix_le in Hr. lia.
  - cbv zeta in *. assert (Hs : past_ssqs p = p \/ length (past_ssqs p) + 2 <= length p).
    { unfold past_ssqs. rewrite H0, H1. cbn [negb]. destruct (negb (at_ p 2 =? 63)%N); [auto|]. destruct (negb (sep_at p 3)) eqn:E3; [auto|].
      right. apply negb_false_iff in E3. apply sep_at_le in E3. pose proof (suffix_le _ _ (suffix_skip_sep (skipn 4 p))). rewrite skipn_length in H. lia. }
    destruct Hs as [Es|Hs].
    + rewrite Es in *. assert (E58 : (at_ p 1 =? 58)%N = false).
      { apply N.eqb_neq. intro K. unfold sep_at in H1. rewrite K in H1. discriminate. }
      rewrite E58, andb_false_r in *. lia.
    + assert (length (if walpha (at_ (past_ssqs p) 0) && (at_ (past_ssqs p) 1 =? 58)%N then skipn 2 (past_ssqs p) else past_ssqs p) <= length (past_ssqs p)).
      { destruct (_ && _); [rewrite skipn_length; lia|lia]. }
      lia.
Qed.

Definition eats walpha (p : list N) : bool := Nat.ltb 0 (drive_len walpha p) && lead p && (at_ p 2 =? 63)%N.

Lemma norm_drive_ok walpha p : device p = false ->
  exists pre, norm_drive walpha p = (pre, past_drive walpha p, true, eats walpha p) /\
  length pre = drive_len walpha p /\ (clean_drive walpha p -> pre = firstn (drive_len walpha p) p).
Proof.
  intro Hdev. unfold norm_drive. unfold device in Hdev. rewrite Hdev. cbv zeta. fold (lead p).
  pose proof (drive_len_le walpha p) as Hd. pose proof (drive_split walpha p) as Hsp.
  assert (Hpl : length (past_drive walpha p) = length p - drive_len walpha p) by (rewrite <- Hsp, skipn_length; reflexivity).
  assert (Hlt : Nat.ltb (length (past_drive walpha p)) (length p) = Nat.ltb 0 (drive_len walpha p)).
  { destruct (Nat.ltb_spec (length (past_drive walpha p)) (length p)), (Nat.ltb_spec 0 (drive_len walpha p)); lia. }
  rewrite Hlt. fold (eats walpha p). set (d := drive_len walpha p) in *.
  set (skip := if Nat.ltb 0 d && lead p then 2 else 0).
  assert (Hsk : skip <= d).
  { unfold skip. destruct (Nat.ltb_spec 0 d); cbn [andb]; [|lia]. destruct (lead p) eqn:El; [|lia]. apply drive_lead; auto. }
  set (x := skipn skip (firstn d p)).
  assert (Ex : skipn skip p = x ++ past_drive walpha p).
  { unfold x. rewrite <- Hsp. rewrite <- (firstn_skipn d p) at 1. rewrite skipn_app. f_equal. rewrite firstn_length.
    replace (skip - Nat.min d (length p)) with 0 by lia. reflexivity. }
  assert (Hxl : length x = d - skip) by (unfold x; rewrite skipn_length, firstn_length; lia).
  destruct (copy_drive_ok (past_drive walpha p) (length p) x) as (w & Ew & Hw & Hwx); [lia| |].
  { destruct x as [|a x0] eqn:Exx; [left; reflexivity|]. right. destruct (sep_at (past_drive walpha p) 0) eqn:Es; [|left; reflexivity]. right.
    destruct (is_separator (last (a :: x0) 0%N)) eqn:El; [|reflexivity]. exfalso.
    pose proof (drive_boundary walpha p d) as Hb. cbn [length] in Hxl. apply Hb; [lia|lia| |].
    - assert (Hla : last (a :: x0) 0%N = at_ p (d - 1)).
      { rewrite <- Exx. rewrite Exx. assert (En : forall (l : list N), l <> [] -> last l 0%N = nth (length l - 1) l 0%N).
        { induction l as [|u l IHl]; [contradiction|]. intros _. destruct l as [|v l]; [reflexivity|]. change (last (u :: v :: l) 0%N) with (last (v :: l) 0%N).
          rewrite IHl by discriminate. cbn [length]. replace (S (S (length l)) - 1) with (S (length l)) by lia. replace (S (length l) - 1) with (length l) by lia. reflexivity. }
        rewrite En by discriminate. rewrite <- Exx. unfold x.
        assert (Hg : forall n i, nth i (skipn n (firstn d p)) 0%N = nth (n + i) (firstn d p) 0%N).
        { intros n i. revert i. generalize (firstn d p). induction n as [|n IHn]; intros l i; [reflexivity|]. destruct l; [destruct i; reflexivity|]. cbn [skipn Nat.add nth]. apply IHn. }
        rewrite Hg. fold x. rewrite Exx. cbn [length]. replace (skip + (S (length x0) - 1)) with (d - 1) by lia.
        unfold at_. rewrite <- (firstn_skipn d p) at 2. rewrite app_nth1; [reflexivity|]. rewrite firstn_length. lia. }
      unfold sep_at. rewrite <- Hla. exact El.
    - rewrite <- Hsp in Es. rewrite sep_at_skipn, Nat.add_0_r in Es. exact Es. }
  rewrite Ex, Ew. eexists. split; [reflexivity|].
  replace (length p - length (past_drive walpha p)) with d by lia. split.
  - rewrite !app_length, !firstn_length, skipn_length. lia.
  - intro Hc. rewrite Hwx.
    + rewrite Hxl. replace (d - skip - (d - skip)) with 0 by lia. cbn [firstn]. rewrite app_nil_r. unfold x.
      rewrite <- (firstn_skipn skip (firstn d p)) at 2. f_equal. rewrite firstn_firstn. f_equal. lia.
    + intros i Hi1 Hi2. unfold x in Hi1, Hi2. rewrite sep_at_skipn in Hi1, Hi2. pose proof (sep_at_le _ _ Hi2) as Hi3. rewrite firstn_length in Hi3.
      rewrite sep_at_firstn in Hi1, Hi2 by lia. replace (skip + S i) with (S (skip + i)) in * by lia.
      destruct (lead p) eqn:El.
      * assert (skip = 2) by (unfold skip; destruct (Nat.ltb_spec 0 d); [reflexivity|lia]). apply (Hc (skip + i)); auto; fold d; lia.
      * assert (skip = 0) as E0 by (unfold skip; rewrite andb_false_r; reflexivity). rewrite E0 in *. cbn [Nat.add] in *.
        destruct (drive_not_lead walpha p El) as [E|(E & _)]; fold d in E; [lia|]. assert (i = 0) by lia. subst i. unfold lead in El. rewrite Hi1, Hi2 in El. discriminate.
Qed.

Definition is_unc_b (p : list N) : bool := match is_unc p with Some _ => true | None => false end.

Lemma unc_rest walpha p : is_unc_b p = true -> past_drive walpha p = [] \/ sep_at (past_drive walpha p) 0 = true.
Proof.
  unfold is_unc_b, past_drive. destruct (is_unc p) as [r|] eqn:E; [|discriminate]. intros _. unfold is_unc in E. cbv zeta in E.
  repeat match type of E with (if ?b then _ else _) = Some _ => destruct b; try discriminate end; apply some_inj in E; rewrite <- E; clear E;
    match goal with |- skip_nonsep ?l = [] \/ _ => destruct (skip_nonsep_split l) as (s & _ & _ & H); exact H end.
Qed.
Lemma unc_device p : device p = true -> is_unc_b p = false.
Proof.
  intro H. unfold device in H. apply andb_true_iff in H as [H H3]. apply andb_true_iff in H as [H H2]. apply andb_true_iff in H as [H0 H1].
  unfold is_unc_b, is_unc. rewrite H0, H1. cbn [negb orb].
  destruct p as [|a [|b [|c [|d p]]]]; try discriminate. change (is_separator a = true) in H0. change (is_separator b = true) in H1.
  change ((c =? 46)%N = true) in H2. change (is_separator d = true) in H3. apply N.eqb_eq in H2. subst c.
  cbn [skip_sep]. rewrite H0, H1. cbn [is_separator N.eqb Pos.eqb orb]. cbv zeta.
  change (at_ (46%N :: d :: p) 0) with 46%N. change (sep_at (46%N :: d :: p) 1) with (is_separator d). rewrite H3, orb_true_r. reflexivity.
Qed.

(** What normalise yields. *)
Lemma normalise_ok walpha b p sepc : sep sepc -> Forall (fun c => c <> 0%N) p -> (N.of_nat (length p) < 2147483648)%N ->
  let rest := if device p then p else past_drive walpha p in
  let rooted := sep_at rest 0 in
  exists pre es,
  elems (if rooted then tl rest else rest) es /\
  length pre = (if device p then 0 else drive_len walpha p) /\
  (device p = false -> clean_drive walpha p -> pre = firstn (drive_len walpha p) p) /\
  let st := nfold (is_unc_b p) (negb (device p)) (eats walpha p && negb (device p)) es (if rooted then None else Some 0, rooted, []) in
  normalise walpha (Some b) p sepc = Some (pre ++ ntext sepc st) /\ length (ntext sepc st) <= length rest.
Proof.
  intros Hsep Hz Hlen rest rooted.
  assert (Hsuf : suffix_of rest p) by (unfold rest; destruct (device p); [apply suffix_refl|apply past_drive_suffix]).
  assert (Hzr : Forall (fun c => c <> 0%N) rest) by (destruct Hsuf as [y Ey]; rewrite Ey in Hz; apply Forall_app in Hz; apply Hz).
  assert (Hlr : length rest <= length p) by (apply suffix_le; exact Hsuf).
  assert (Hzt : Forall (fun c => c <> 0%N) (if rooted then tl rest else rest)).
  { destruct rooted; [|exact Hzr]. destruct rest; [constructor|exact (Forall_inv_tail Hzr)]. }
  destruct (elems_exist _ Hzt) as [es Hes].
  assert (Hnd : exists pre, norm_drive walpha p = (pre, rest, negb (device p), eats walpha p && negb (device p)) /\
    length pre = (if device p then 0 else drive_len walpha p) /\ (device p = false -> clean_drive walpha p -> pre = firstn (drive_len walpha p) p)).
  { unfold rest. destruct (device p) eqn:Ed.
    - exists []. cbn [negb]. rewrite andb_false_r. split; [|split; [reflexivity|discriminate]]. unfold norm_drive. unfold device in Ed. rewrite Ed. reflexivity.
    - destruct (norm_drive_ok walpha p Ed) as (pre & E1 & E2 & E3). exists pre. cbn [negb]. rewrite andb_true_r. auto. }
  destruct Hnd as (pre & En & Hpl & Hpre). exists pre, es. split; [exact Hes|]. split; [exact Hpl|]. split; [exact Hpre|]. cbv zeta.
  unfold normalise. cbv zeta. fold (is_unc_b p). rewrite En. fold rooted.
  assert (Hprev : exists y, match rev pre with c :: _ => Some c | [] => Some b end = Some y) by (destruct (rev pre); eexists; reflexivity).
  destruct Hprev as [y ->].
  assert (Hunc : is_unc_b p = true -> rest = [] \/ rooted = true).
  { intro Hu. unfold rooted, rest. destruct (device p) eqn:Ed; [rewrite unc_device in Hu by exact Ed; discriminate|]. apply unc_rest; exact Hu. }
  assert (Hr1 : rooted = true -> S (length (tl rest)) = length rest).
  { intro Hr. unfold rooted in Hr. destruct rest; [discriminate|reflexivity]. }
  destruct (loop_ok sepc (is_unc_b p) (negb (device p)) (eats walpha p && negb (device p)) y (length rest) Hsep _ es Hes Hzt (S (length rest))
     (length (if rooted then [sepc] else []) - (if rooted && is_unc_b p then 1 else 0)) (if rooted then 2147483647%N else 0%N) (if rooted then None else Some 0) rooted []) as [L1 L2].
  - constructor.
  - reflexivity.
  - unfold rb. destruct rooted; cbn [andb length]; [destruct (is_unc_b p); reflexivity|]. destruct (is_unc_b p); reflexivity.
  - unfold rtext, rb. cbn [rev join flat_map]. rewrite app_nil_r, rev_length. destruct rooted; cbn [length]; [specialize (Hr1 eq_refl); lia|lia].
  - intros Hu Hne. destruct (Hunc Hu) as [E|E]; [rewrite E in *; destruct rooted; cbn in Hne; contradiction|]. rewrite E in *. specialize (Hr1 eq_refl). lia.
  - destruct rooted; [specialize (Hr1 eq_refl)|]; lia.
  - destruct rooted; [specialize (Hr1 eq_refl)|]; lia.
  - unfold cnt_ok. destruct rooted; [specialize (Hr1 eq_refl)|]; lia.
  - assert (Eo : (if rooted then [sepc] else []) = rtext sepc rooted []) by (unfold rtext, rb; destruct rooted; reflexivity).
    rewrite Eo in L1 |- *. rewrite L1. rewrite rev_involutive. auto.
Qed.

(** ** The fold *)
Definition flags_ok (stack : list elem) : Prop := Forall (fun e => proper (fst e)) stack /\ Forall (fun e => snd e = true) (tl stack).

Lemma good_flags stack : Forall good stack -> flags_ok stack.
Proof.
  intro H. split; [eapply Forall_impl; [|exact H]; intros e [_ He]; exact He|]. destruct H as [|e l He H]; [constructor|].
  cbn [tl]. eapply Forall_impl; [|exact H]. intros x [Hx _]. exact Hx.
Qed.

Lemma nstep_good unc dots eat count root stack n : Forall good stack -> proper n ->
  Forall good (snd (nstep unc dots eat (count, root, stack) (n, true))).
Proof.
  intros Hg Hn. assert (Hp : Forall good ((n, true) :: stack)) by (constructor; [split; [reflexivity|exact Hn]|exact Hg]).
  assert (Ht : Forall good (tl stack)) by (destruct Hg; [constructor|assumption]).
  assert (Hne : eqb_name n [] = false) by (apply eqb_name_no; apply Hn).
  unfold nstep. cbn [fst]. rewrite Hne. destruct (dots && eqb_name n dot); [exact Hg|].
  destruct (dots && eqb_name n dotdot); [|exact Hp]. destruct count as [[|k]|]; [destruct eat; [exact Hg|exact Hp]|exact Ht|exact Ht].
Qed.
Lemma nstep_flags unc dots eat count root stack n : Forall good stack -> proper n \/ n = [] ->
  flags_ok (snd (nstep unc dots eat (count, root, stack) (n, false))).
Proof.
  intros Hg Hn. assert (Hf : flags_ok stack) by (apply good_flags; exact Hg).
  assert (Hp : flags_ok (if eqb_name n [] then stack else (n, false) :: stack)).
  { destruct (eqb_name n []) eqn:E; [exact Hf|]. destruct Hn as [Hn| ->]; [|apply eqb_name_no in E; congruence].
    destruct Hf as [Hf1 _]. split; [constructor; [exact Hn|exact Hf1]|]. cbn [tl]. eapply Forall_impl; [|exact Hg]. intros x [Hx _]. exact Hx. }
  assert (Ht : flags_ok (tl stack)) by (apply good_flags; destruct Hg; [constructor|assumption]).
  unfold nstep. cbn [fst]. destruct (dots && eqb_name n dot); [exact Hf|].
  destruct (dots && eqb_name n dotdot); [|exact Hp]. destruct count as [[|k]|]; [destruct eat; [exact Hf|exact Hp]|exact Ht|exact Ht].
Qed.

Lemma nfold_flags unc dots eat rest es : elems rest es -> forall st, Forall good (snd st) -> flags_ok (snd (nfold unc dots eat es st)).
Proof.
  induction 1 as [|s Hne Hs|s n Hs Hn|s n c r es Hs Hn Hc Hes IH]; intros [[count root] stack] Hg; cbn [snd] in Hg.
  - apply good_flags. exact Hg.
  - apply nstep_flags; auto.
  - apply nstep_flags; auto.
  - unfold nfold. cbn [fold_left]. apply IH. apply nstep_good; auto.
Qed.

(** An invariant of the stack that every step keeps. *)
Lemma nfold_inv unc dots eat (P : nstate -> Prop) (Q : elem -> Prop) :
  (forall st e, P st -> Q e -> P (nstep unc dots eat st e)) ->
  forall es st, P st -> Forall Q es -> P (nfold unc dots eat es st).
Proof.
  intro Hs. induction es as [|e es IH]; intros st Hp Hq; [exact Hp|]. unfold nfold. cbn [fold_left]. apply IH; [|exact (Forall_inv_tail Hq)].
  apply Hs; [exact Hp|exact (Forall_inv Hq)].
Qed.

Definition special (n : list N) : Prop := n = dot \/ n = dotdot.

Lemma rooted_no_dots unc eat es root : let st := nfold unc true eat es (None, root, []) in
  fst (fst st) = None /\ Forall (fun e => ~ special (fst e)) (snd st).
Proof.
  cbv zeta. apply (nfold_inv unc true eat (fun st => fst (fst st) = None /\ Forall (fun e => ~ special (fst e)) (snd st)) (fun _ => True)).
  - intros [[count r] stack] e [Hc Hf] _. cbn [fst snd] in Hc, Hf. subst count. unfold nstep. cbn [andb].
    destruct (eqb_name (fst e) dot) eqn:E1; [split; [reflexivity|exact Hf]|].
    destruct (eqb_name (fst e) dotdot) eqn:E2; [split; [reflexivity|destruct Hf; [constructor|assumption]]|].
    split; [destruct (dot_name (fst e)); reflexivity|]. cbn [snd]. destruct (eqb_name (fst e) []); [exact Hf|]. constructor; [|exact Hf].
    apply eqb_name_no in E1. apply eqb_name_no in E2. intros [K|K]; contradiction.
  - split; [reflexivity|constructor].
  - clear. induction es; constructor; auto.
Qed.

(** Without other names that begin with a dot: dots-only elements first, as many as could not be taken back. *)
Definition plain_dots (e : elem) : Prop := dot_name (fst e) = true -> special (fst e).
Definition rel_ok (eat : bool) (st : nstate) : Prop :=
  let '(count, _, stack) := st in
  exists names ups, stack = names ++ ups /\ count = Some (length names) /\
    Forall (fun e => fst e <> [] -> dot_name (fst e) = false) names /\ Forall (fun e => fst e = dotdot) ups /\ (eat = true -> ups = []).

Lemma rel_step unc eat st e : (exists f, e = (fst e, f) /\ fst e <> []) -> rel_ok eat st -> plain_dots e -> rel_ok eat (nstep unc true eat st e).
Proof.
  destruct st as [[count root] stack]. intros (f & He & Hne) (names & ups & -> & -> & Hn & Hu & Heat) Hp. unfold nstep. cbn [andb].
  assert (En : eqb_name (fst e) [] = false) by (apply eqb_name_no; exact Hne). rewrite En.
  destruct (eqb_name (fst e) dot) eqn:E1; [exists names, ups; auto|].
  destruct (eqb_name (fst e) dotdot) eqn:E2.
  - apply eqb_name_ok in E2. destruct names as [|x names]; cbn [length option_map pred].
    + destruct eat; [exists [], ups; auto|]. exists [], (e :: ups). split; [reflexivity|]. split; [reflexivity|]. split; [constructor|].
      split; [constructor; auto|discriminate].
    + exists names, ups. split; [reflexivity|]. split; [reflexivity|]. split; [exact (Forall_inv_tail Hn)|auto].
  - assert (Hdn : dot_name (fst e) = false).
    { destruct (dot_name (fst e)) eqn:E; [|reflexivity]. apply eqb_name_no in E1. apply eqb_name_no in E2. destruct (Hp E); contradiction. }
    rewrite Hdn. cbn [option_map]. exists (e :: names), ups. split; [reflexivity|]. split; [reflexivity|]. split; [constructor; auto|auto].
Qed.

Lemma rel_end unc eat st : rel_ok eat st -> exists count root, nstep unc true eat st ([], false) = (count, root, snd st).
Proof. destruct st as [[count root] stack]. intros _. unfold nstep. cbn. eexists _, _. reflexivity. Qed.

Lemma rel_fold unc eat rest es : elems rest es -> Forall plain_dots es -> forall st, rel_ok eat st ->
  exists count root, let st' := nfold unc true eat es st in rel_ok eat (count, root, snd st').
Proof.
  induction 1 as [|s Hne Hs|s n Hs Hn|s n c r es Hs Hn Hc Hes IH]; intros Hp st Hr.
  - destruct st as [[count root] stack]. exists count, root. exact Hr.
  - destruct (rel_end unc eat st Hr) as (count & root & E). unfold nfold. cbn [fold_left]. rewrite E. cbn [snd].
    destruct st as [[count0 root0] stack]. exists count0, root0. exact Hr.
  - unfold nfold. cbn [fold_left]. pose proof (rel_step unc eat st (n, false)) as H. destruct (nstep unc true eat st (n, false)) as [[count root] stack].
    exists count, root. apply H; [exists false; split; [reflexivity|apply Hn]|exact Hr|exact (Forall_inv Hp)].
  - unfold nfold. cbn [fold_left]. apply IH; [exact (Forall_inv_tail Hp)|]. apply rel_step; [exists true; split; [reflexivity|apply Hn]|exact Hr|exact (Forall_inv Hp)].
Qed.

(** ** Reading the result again *)
Lemma elems_join sepc : sep sepc -> forall es, Forall (fun e => proper (fst e)) es ->
  (forall a e, es = a ++ [e] -> Forall (fun e => snd e = true) a) -> elems (join sepc es) es.
Proof.
  intro Hs. induction es as [|[n f] es IH]; intros Hp Hf; [constructor|].
  destruct es as [|e2 es].
  - cbn [join flat_map fst snd]. rewrite app_nil_r. pose proof (Forall_inv Hp) as Hn. cbn [fst] in Hn. destruct f.
    + pose proof (EL_more [] n sepc [] [] (Forall_nil _) Hn Hs EL_nil) as H. exact H.
    + rewrite app_nil_r. exact (EL_last [] n (Forall_nil _) Hn).
  - assert (Hft : f = true).
    { destruct (exists_last (l := e2 :: es)) as (a & e & E); [discriminate|]. specialize (Hf ((n, f) :: a) e). cbn [app] in Hf. rewrite <- E in Hf.
      specialize (Hf eq_refl). exact (Forall_inv Hf). }
    subst f. change (join sepc ((n, true) :: e2 :: es)) with ((n ++ [sepc]) ++ join sepc (e2 :: es)). rewrite <- app_assoc. cbn [app].
    apply (EL_more [] n sepc (join sepc (e2 :: es)) (e2 :: es)); [constructor|exact (Forall_inv Hp)|exact Hs|].
    apply IH; [exact (Forall_inv_tail Hp)|]. intros a e E. specialize (Hf ((n, true) :: a) e). cbn [app] in Hf. rewrite E in Hf. exact (Forall_inv_tail (Hf eq_refl)).
Qed.

Lemma elems_stack sepc stack : sep sepc -> flags_ok stack -> elems (join sepc (rev stack)) (rev stack).
Proof.
  intros Hs [H1 H2]. apply elems_join; [exact Hs|apply Forall_rev; exact H1|]. intros a e E.
  apply (f_equal (@rev elem)) in E. rewrite rev_involutive, rev_app_distr in E. cbn [rev app] in E. rewrite E in H2. cbn [tl] in H2.
  rewrite <- (rev_involutive a). apply Forall_rev. exact H2.
Qed.

Lemma join_start sepc es : Forall (fun e => proper (fst e)) es -> sep_at (join sepc es) 0 = false.
Proof.
  intro H. destruct H as [|[n f] es Hn H]; [reflexivity|]. cbn [join flat_map fst snd]. rewrite <- app_assoc. apply nosep_at0. exact Hn.
Qed.

(** Elements are determined by the text. *)
Lemma proper_cons c n : proper (c :: n) -> ~ sep c.
Proof. intros [_ H]. exact (Forall_inv H). Qed.

Lemma sep_prefix s1 s2 a b : Forall sep s1 -> Forall sep s2 -> sep_at a 0 = false -> sep_at b 0 = false -> s1 ++ a = s2 ++ b -> a = b.
Proof.
  intros H1 H2 Ha Hb E. rewrite <- (skip_sep_id a Ha), <- (skip_sep_id b Hb). rewrite <- (skip_sep_app s1 a H1), <- (skip_sep_app s2 b H2), E. reflexivity.
Qed.
Lemma elems_fun p es : elems p es -> forall es', elems p es' -> es = es'.
Proof.
  assert (Hlen : forall n, proper n -> sep_at n 0 = false) by (intros n Hn; rewrite <- (app_nil_r n); apply nosep_at0; exact Hn).
  assert (Hsn : forall n, proper n -> skip_nonsep n = []) by (intros n Hn; rewrite <- (app_nil_r n), skip_nonsep_app by apply Hn; reflexivity).
  assert (Hsm : forall n c r, proper n -> sep c -> skip_nonsep (n ++ c :: r) = c :: r).
  { intros n c r Hn Hc. rewrite skip_nonsep_app by apply Hn. cbn [skip_nonsep]. apply sep_b in Hc. rewrite Hc. reflexivity. }
  induction 1 as [|s Hne Hs|s n Hs Hn|s n c r es Hs Hn Hc Hes IH]; intros es' H'.
  - inversion H' as [|s1 Hne1|s1 n1 Hs1 Hn1 E|s1 n1 c1 r1 es1 Hs1 Hn1 Hc1 He1 E]; subst; [reflexivity|contradiction| |].
    + apply app_eq_nil in E as [_ ->]. destruct Hn1 as [Hn1 _]. contradiction.
    + apply app_eq_nil in E as [_ E]. apply app_eq_nil in E as [_ E]. discriminate.
  - remember s as q eqn:Eq. destruct H' as [|s1 Hne1 Hs1|s1 n1 Hs1 Hn1|s1 n1 c1 r1 es1 Hs1 Hn1 Hc1 He1]; [contradiction|reflexivity| |].
    + apply Forall_app in Hs as [_ Hs]. destruct n1 as [|c n1]; [destruct Hn1 as [Hn1 _]; contradiction|]. apply Forall_inv in Hs. apply proper_cons in Hn1. contradiction.
    + apply Forall_app in Hs as [_ Hs]. destruct n1 as [|c n1]; [destruct Hn1 as [Hn1 _]; contradiction|]. apply Forall_inv in Hs. apply proper_cons in Hn1. contradiction.
  - remember (s ++ n) as q eqn:Eq. destruct H' as [|s1 Hne1 Hs1|s1 n1 Hs1 Hn1|s1 n1 c1 r1 es1 Hs1 Hn1 Hc1 He1].
    + symmetry in Eq. apply app_eq_nil in Eq as [_ ->]. destruct Hn as [Hn _]. contradiction.
    + exfalso. rewrite Eq in Hs1. apply Forall_app in Hs1 as [_ Hs1]. destruct n as [|c n]; [destruct Hn as [Hn _]; contradiction|]. apply Forall_inv in Hs1. apply proper_cons in Hn. contradiction.
    + apply sep_prefix in Eq; auto. subst. reflexivity.
    + apply sep_prefix in Eq; auto; [|apply nosep_at0; exact Hn1]. apply (f_equal skip_nonsep) in Eq. rewrite Hsm, Hsn in Eq by auto. discriminate.
  - remember (s ++ n ++ c :: r) as q eqn:Eq. destruct H' as [|s1 Hne1 Hs1|s1 n1 Hs1 Hn1|s1 n1 c1 r1 es1 Hs1 Hn1 Hc1 He1].
    + symmetry in Eq. apply app_eq_nil in Eq as [_ Eq]. apply app_eq_nil in Eq as [_ Eq]. discriminate.
    + exfalso. rewrite Eq in Hs1. apply Forall_app in Hs1 as [_ Hs1]. destruct n as [|d n]; [destruct Hn as [Hn _]; contradiction|]. apply Forall_inv in Hs1. apply proper_cons in Hn. contradiction.
    + apply sep_prefix in Eq; auto; [|apply nosep_at0; exact Hn]. apply (f_equal skip_nonsep) in Eq. rewrite Hsm, Hsn in Eq by auto. discriminate.
    + apply sep_prefix in Eq; auto; [|apply nosep_at0; exact Hn1|apply nosep_at0; exact Hn].
      pose proof (f_equal skip_nonsep Eq) as E2. rewrite !Hsm in E2 by auto. injection E2 as -> ->.
      apply app_inv_tail in Eq. subst n1. rewrite (IH es1 He1). reflexivity.
Qed.

(** Pushing all. *)
Lemma push_all unc eat es : Forall (fun e => fst e <> [] /\ ~ special (fst e)) es -> forall count root stack,
  exists count', nfold unc true eat es (count, root, stack) = (count', match es with [] => root | _ => root || unc end, rev es ++ stack).
Proof.
  induction 1 as [|e es [Hne Hsp] Hes IH]; intros count root stack; [exists count; reflexivity|].
  change (nfold unc true eat (e :: es) (count, root, stack)) with (nfold unc true eat es (nstep unc true eat (count, root, stack) e)).
  assert (E0 : eqb_name (fst e) [] = false) by (apply eqb_name_no; exact Hne).
  assert (E1 : eqb_name (fst e) dot = false) by (apply eqb_name_no; intro K; apply Hsp; left; exact K).
  assert (E2 : eqb_name (fst e) dotdot = false) by (apply eqb_name_no; intro K; apply Hsp; right; exact K).
  assert (En : nstep unc true eat (count, root, stack) e = (if dot_name (fst e) then count else option_map S count, root || unc, e :: stack)).
  { unfold nstep. cbn [andb]. rewrite E0, E1, E2. reflexivity. }
  rewrite En. destruct (IH (if dot_name (fst e) then count else option_map S count) (root || unc) (e :: stack)) as [count' E].
  exists count'. etransitivity; [exact E|]. cbn [rev]. rewrite <- app_assoc. cbn [app]. f_equal. f_equal. destruct es; [reflexivity|]. destruct root, unc; reflexivity.
Qed.
Lemma push_ups unc es : Forall (fun e => fst e = dotdot) es -> forall root stack,
  nfold unc true false es (Some 0, root, stack) = (Some 0, match es with [] => root | _ => root || unc end, rev es ++ stack).
Proof.
  induction 1 as [|e es He Hes IH]; intros root stack; [reflexivity|].
  change (nfold unc true false (e :: es) (Some 0, root, stack)) with (nfold unc true false es (nstep unc true false (Some 0, root, stack) e)).
  assert (En : nstep unc true false (Some 0, root, stack) e = (Some 0, root || unc, e :: stack)) by (unfold nstep; rewrite He; reflexivity).
  rewrite En. etransitivity; [apply IH|]. cbn [rev]. rewrite <- app_assoc. cbn [app].
  f_equal. f_equal. destruct es; [reflexivity|]. destruct root, unc; reflexivity.
Qed.
