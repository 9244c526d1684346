(** Model of os::expand_env (clink/core/src/os.cpp 828-890), used by os.expandenv (clink/lua/src/os_api.cpp 1956-1967), by the
    commands clink-expand-env-var and clink-expand-line (clink/lib/src/rl/rl_commands.cpp 822-843, 847-905), and to find out what a
    word is (clink/lib/src/recognizer.cpp 763, 812; clink/lib/src/intercept.cpp 51).
    Text is a list of bytes without NUL that is valid UTF-8, so that the byte 37 is always the character %; lengths do not
    overflow 32 bits. *)
From Verif Require Import Base.
Open Scope N_scope.

Definition bytes := list N.
Definition is_percent (c : N) : bool := c =? 37.
(** while (iter.more() && iter.peek() != '%') iter.next(); 838-839 and 852-853 *)
Fixpoint to_percent (l : bytes) : bytes * bytes := match l with c :: l' => if is_percent c then ([], l) else let '(a, b) := to_percent l' in (c :: a, b) | [] => ([], []) end.
Section Env.
(** os::get_env, 893-949 *)
Variable env : bytes -> option bytes.
(** 872-879: the cursor, after what is between [offset] and [replaced_end] became [value] *)
Definition move_point (point : Z) (offset replaced_end : nat) (value : bytes) : Z :=
  if (Z.of_nat offset <? point)%Z then
    if (point <=? Z.of_nat replaced_end)%Z then (Z.of_nat offset + Z.of_nat (length value))%Z
    else (point + (Z.of_nat (length value) - (Z.of_nat replaced_end - Z.of_nat offset)))%Z
  else point.
Record state := mkS { s_out : bytes; s_expanded : bool; s_point : Z }.
(** 835-887: [l] is what the iterator has still to see, [pos] where it is; [None]: out of fuel *)
Fixpoint loop (fuel : nat) (l : bytes) (pos : nat) (s : state) : option state :=
  match fuel with
  | O => None
  | S fuel' =>
      let '(t, l1) := to_percent l in
      let s := mkS (s_out s ++ t) (s_expanded s) (s_point s) in
      match l1 with
      | [] => Some s
      | _ :: l2 =>
          let offset := (pos + length t)%nat in
          let '(var, l3) := to_percent l2 in
          match l3, var with
          | _ :: l4, _ :: _ =>
              let next := (offset + 2 + length var)%nat in
              match env var with
              | Some value => loop fuel' l4 next (mkS (s_out s ++ value) true (move_point (s_point s) offset next value))
              | None => loop fuel' l4 next (mkS (s_out s ++ 37 :: var ++ [37]) (s_expanded s) (s_point s))
              end
          | _, _ => loop fuel' l3 (offset + 1 + length var)%nat (mkS (s_out s ++ 37 :: var) (s_expanded s) (s_point s))
          end
      end
  end.
(** 828-833: what comes out, whether something was expanded, and the cursor *)
Definition expand_env (l : bytes) (point : Z) : option state := loop (S (length l)) l O (mkS [] false point).
End Env.
