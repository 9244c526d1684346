(** Unbinding of key sequences: rl_generic_bind (readline/readline/bind.c:387-516) with a null function, on the tree of
    KtModel.  What is bound is abstract, with _rl_null_function and a test for macros (ISMACR).  Simplified: with one
    key from 128 on, line 502 reads before the array if char is signed (prevkey is then negative); this read is taken
    to find no keymap. *)
From Verif Require Import Base KtModel.
Local Open Scope N_scope.

Section Unbind.
Context {B : Type} (lowercase macro : B -> bool) (null_function : B).

Definition is_null (e : entry B) : bool := match e with Null => true | _ => false end.
(** keymaps.c:83-94 rl_empty_keymap: ANYOTHERKEY is not looked at *)
Definition empty_keymap (kids : N -> entry B) : bool := forallb (fun i => is_null (kids i)) all_bytes.
(** bind.c:501-511: an empty keymap gives way to the function it shadowed.  An entry of a bare keymap is a null
    function of type ISFUNC (keymaps.c:63-67). *)
Definition collapse (any : option B) (kids : N -> entry B) : entry B :=
  if empty_keymap kids then match any with None => Null | Some c => if macro c then Map any kids else Leaf c end
  else Map any kids.
(** bind.c:436-466: the keymap at an entry, made if there is none *)
Definition open_map (e : entry B) : option B * (N -> entry B) :=
  match e with
  | Map any kids => (any, kids)
  | Leaf c => (if lowercase c then None else Some c, fun _ => Null)
  | Null => (None, fun _ => Null)
  end.
(** bind.c:471-486: the entry of the last key *)
Definition unset (e : entry B) : entry B := match e with Map _ kids => Map (Some null_function) kids | _ => Null end.
(** bind.c:421-511 below the first keymap; line 501 finds data not null if the last key's entry is a keymap. *)
Fixpoint unbind_in (ks : list N) (e : entry B) : entry B :=
  match ks with
  | [] => unset e
  | k :: r =>
      let m := open_map e in
      let kids := update (snd m) k (unbind_in r (snd m k)) in
      match r, snd m k with
      | _ :: _, _ => Map (fst m) kids
      | [], Map _ _ => Map (fst m) kids
      | [], _ => collapse (fst m) kids
      end
  end.
(** bind.c:418-511 from the first keymap, which has no keymap before it and stays. *)
Definition unbind (ks : list N) (e : entry B) : entry B :=
  match ks with
  | [] => e
  | k :: r => let m := open_map e in Map (fst m) (update (snd m) k (unbind_in r (snd m k)))
  end.

(** Lines of .inputrc: those that name no function unbind. *)
Definition change (e : entry B) (p : list N * option B) : entry B :=
  match snd p with Some b => bind lowercase (fst p) b e | None => unbind (fst p) e end.
Definition change_all (cs : list (list N * option B)) (e : entry B) : entry B := fold_left change cs e.
(** keymaps.c:57-79 rl_make_bare_keymap *)
Definition bare : entry B := Map None (fun _ => Null).
End Unbind.
