(** Which executions of several sessions are considered, and what a removal may change. *)
From Verif Require Import Base HistSpec HistDbSpec HistFileModel HistDbModel HistWorldModel.

(** A text such that marking its line as deleted does not make it a time stamp line. *)
Definition safe_line (t : bytes) : Prop := bar_line t = true \/ time_line (BAR :: tl t) = false.
Definition safe_file (f : bytes) : Prop := Forall (fun l => safe_line (snd l)) (lines_of f).

Definition tag_bounds (t : tagsrc) : Prop :=
  (tg_time t < 4294967296 /\ tg_tick t < 4294967296 /\ tg_pid t < 4294967296 /\ tg_seq t < 4294967296)%N.

(** Conditions on one step: plain command lines that fit the buffer (of [cap] bytes), files within the offset range,
    new tags never used before ([used]), ids taken from what the session was shown. *)
Definition step_ok (cap : nat) (used : list bytes) (w : world) (st : step) : Prop :=
  match st with
  | SAdd i stamp now line =>
      plain line /\ length line < cap - 1 /\
      (N.of_nat (length (w_m w) + length line + 20) <= max_off)%N /\
      (forall p l, nth_error (w_p w) i = Some p -> s_lines (p_s p) = Some l ->
         (N.of_nat (length l + length line + 20) <= max_off)%N)
  | SRemM _ line | SRemS _ line => plain line
  | SRemId i id => exists p t, nth_error (w_p w) i = Some p /\ In (id, t) (p_shown p)
  | SClear _ tag | SCompact _ tag _ _ =>
      tag_bounds tag /\ ~ In (tag_text tag) used /\ (N.of_nat (length (w_m w) + 50) <= max_off)%N
  | SReap j => forall p l, nth_error (w_p w) j = Some p -> s_lines (p_s p) = Some l ->
      (N.of_nat (length (w_m w) + length l) <= max_off)%N
  | SReuse _ _ => False
  | _ => True
  end.

(** The tags in use after a step. *)
Definition new_tags (st : step) : list bytes :=
  match st with SClear _ tag | SCompact _ tag _ _ => [tag_text tag] | _ => [] end.

(** Worlds reachable from a master file without sessions; [used] are the tags used so far. *)
Inductive reachable (G T : bytes) : list bytes -> world -> Prop :=
| reach_init tag rest : wf_master (length G) (tag ++ LF :: rest) -> good_tag tag -> safe_file (tag ++ LF :: rest) ->
    reachable G T [tag] (mkW (tag ++ LF :: rest) [])
| reach_step used w st w' : reachable G T used w -> step_ok (length G) used w st -> do_step G T w st = Some w' ->
    reachable G T (new_tags st ++ used) w'.

(** Entries other than the one at offset [o]. *)
Definition but (o : nat) (es : list ventry) : list (nat * bytes) :=
  filter (fun l => negb (Nat.eqb (fst l) o)) (map off_text es).
Definition at_off (o : nat) (t : bytes) (es : list ventry) : Prop :=
  forall e, In e es -> v_off e = o -> v_text e = t.

(** Nothing but the entry with text [t] at offset [o] disappears; nothing else changes. *)
Definition removes_only (o : nat) (t : bytes) (before after : list ventry) : Prop :=
  but o after = but o before /\ at_off o t before.
Definition gone (o : nat) (es : list ventry) : Prop := forall e, In e es -> v_off e <> o.
