(** Specification of what a session sees: master entries minus its pending removals, then its own. *)
From Verif Require Import Base HistSpec.

(** Offsets written in a removals file [r], provided its first line is the first line (the tag) of the
    master file [m]. *)
Definition spec_removed (m : bytes) (r : option bytes) (o : nat) : bool :=
  match r with
  | None => false
  | Some rf =>
      match lines_of m, lines_of rf with
      | (_, t) :: _, (_, t') :: nums =>
          eqb_bytes t t' && existsb (fun l => eqb_bytes (snd l) (dec (N.of_nat o))) nums
      | _, _ => false
      end
  end.

Definition view_master (m : bytes) (r : option bytes) : list ventry := visible (spec_removed m r) m.
Definition view_session (l : option bytes) : list ventry :=
  match l with None => [] | Some f => visible none_removed f end.

(** The texts of the history list a session sees. *)
Definition texts (m : bytes) (r l : option bytes) : list bytes :=
  map v_text (view_master m r) ++ map v_text (view_session l).

Definition off_text (e : ventry) : nat * bytes := (v_off e, v_text e).

(** ** Well-formed files *)

Definition good_tag (t : bytes) : Prop := prefixb CTAG t = true /\ no_brk t = true /\ length t <= 49.

(** A master file starts with a tag line; its lines fit the read buffer (of [cap] bytes, one of which is
    reserved when loading); it is smaller than the largest representable offset. *)
Definition max_off : N := 536870911.
Definition fits (cap : nat) (f : bytes) : Prop :=
  terminated f /\ lines_fit (cap - 1) (lines_of f) /\ (N.of_nat (length f) <= max_off)%N.
Definition wf_master (cap : nat) (m : bytes) : Prop :=
  fits cap m /\ exists tag rest, m = tag ++ LF :: rest /\ good_tag tag.
Definition wf_bank (cap : nat) (l : option bytes) : Prop :=
  match l with None => True | Some f => fits cap f end.

(** A removals file: a tag line (or, after clear, nothing) and decimal offsets. *)
Definition nums (os : list nat) : bytes := flat_map (fun o => dec (N.of_nat o) ++ [LF]) os.
Definition rem_file (tag : option bytes) (os : list nat) : bytes :=
  match tag with None => nums os | Some t => t ++ LF :: nums os end.
Definition wf_rem (r : option bytes) : Prop :=
  match r with
  | None => True
  | Some rf => exists tag os, rf = rem_file tag os /\
      (forall t, tag = Some t -> good_tag t) /\ Forall (fun o => (N.of_nat o < max_off)%N) os
  end.

(** The file does not end with a time stamp line. *)
Definition no_dangling (f : bytes) : Prop :=
  forall ls o t, lines_of f = ls ++ [(o, t)] -> time_line t = false.

(** Acceptable text of a command line. *)
Definition plain (t : bytes) : Prop :=
  t <> [] /\ no_brk t = true /\ bar_line t = false /\ time_line (BAR :: tl t) = false.

(** The removals file belongs to the current master tag. *)
Definition rem_current (m : bytes) (r : option bytes) : Prop :=
  match r with
  | None => True
  | Some rf => exists tag rest os, m = tag ++ LF :: rest /\ good_tag tag /\
      rf = rem_file (Some tag) os /\ Forall (fun o => (N.of_nat o < max_off)%N) os
  end.
