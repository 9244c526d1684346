(** Readline's keymaps as a tree, binding of key sequences, and the listing of all bindings.
    Modelled: rl_generic_bind (readline/readline/bind.c:387-516) for functions and macros that are not null, and the
    walk of collect_keymap (clink/lib/src/rl/rl_help.cpp:740-852).  The loop of rl_generic_bind, which goes down the
    maps and carries a shadowed binding along in k, is written as a recursion on the key sequence.  Simplified:
    unbinding (a null function) is left out; what is bound is abstract, with two tests on it: whether it is
    rl_do_lowercase_version (bind.c:459) and whether the listing leaves it out (rl_help.cpp:721-737, 779-780). *)
From Verif Require Import Base.
Local Open Scope N_scope.

Section Keymaps.
Context {B : Type} (lowercase hidden : B -> bool).

(** keymaps.h:38-48 KEYMAP_ENTRY: nothing, a function or macro (ISFUNC, ISMACR), or a further keymap (ISKMAP) with the
    binding at its index ANYOTHERKEY and its entries for bytes. *)
Inductive entry := Null | Leaf (b : B) | Map (any : option B) (kids : N -> entry).

Definition update (kids : N -> entry) (k : N) (e : entry) : N -> entry := fun i => if i =? k then e else kids i.

(** bind.c:421-490.  No key left: line 475 finds a keymap and takes ANYOTHERKEY, or the entry is set.  More keys left:
    line 436 finds something else than a keymap, makes a bare one and keeps what was there at ANYOTHERKEY. *)
Fixpoint bind (ks : list N) (b : B) (e : entry) : entry :=
  match ks with
  | [] => match e with Map _ kids => Map (Some b) kids | _ => Leaf b end
  | k :: r =>
      match e with
      | Map any kids => Map any (update kids k (bind r b (kids k)))
      | Leaf c => Map (if lowercase c then None else Some c) (update (fun _ => Null) k (bind r b Null))
      | Null => Map None (update (fun _ => Null) k (bind r b Null))
      end
  end.

Definition all_bytes : list N := map N.of_nat (seq 0 256).

Definition list_one (keyseq : list N) (b : B) : list (list N * B) := if hidden b then [] else [(keyseq, b)].
(** rl_help.cpp:755-849: the entries of a map in order, ANYOTHERKEY (256) last and without a key of its own *)
Fixpoint collect (keyseq : list N) (e : entry) : list (list N * B) :=
  match e with
  | Null => []
  | Leaf b => list_one keyseq b
  | Map any kids => flat_map (fun i => collect (keyseq ++ [i]) (kids i)) all_bytes ++ match any with Some b => list_one keyseq b | None => [] end
  end.

(** Bindings made one after another (lines of .inputrc). *)
Definition bind_all (bs : list (list N * B)) (e : entry) : entry := fold_left (fun e p => bind (fst p) (snd p) e) bs e.
End Keymaps.
Arguments entry : clear implicits.
