(** clink/lib/src/binder.cpp and clink/lib/src/bind_resolver.cpp: key bindings.

    Keys are bytes.  m_nodes is the list of the nodes handed out so far (m_next_node is its length); reading any other
    slot gives [None], as does reading a group node as a node: the array is not initialised and the two kinds of nodes
    overlay each other.  Links fit their 9 bits since there are 512 slots, modules their 5 bits since there are 32. *)
From Verif Require Import Base.
Open Scope N_scope.

(** binder.h 39-61 *)
Record node := mkN { n_next : nat; n_module : nat; n_params : bool; n_child : nat; n_depth : nat; n_bound : bool; n_key : N; n_id : N }.
Inductive slot := SGroup (next : nat) (hash : N) | SNode (n : node).
Record binder := mkB { b_nodes : list slot; b_modules : list N }.
Definition zero_node := mkN 0 0 false 0 0 false 0 0.
Definition slots : nat := 512.
Definition max_modules : nat := 32.

Definition get (b : binder) (i : nat) : option node := match nth_error (b_nodes b) i with Some (SNode n) => Some n | _ => None end.
Definition set_nth {A} (l : list A) (i : nat) (x : A) : list A := firstn i l ++ match skipn i l with [] => [] | _ :: r => x :: r end.
Definition put (b : binder) (i : nat) (n : node) : binder := mkB (set_nth (b_nodes b) i (SNode n)) (b_modules b).
Definition with_next (n : node) (x : nat) := mkN x (n_module n) (n_params n) (n_child n) (n_depth n) (n_bound n) (n_key n) (n_id n).
Definition with_child (n : node) (x : nat) := mkN (n_next n) (n_module n) (n_params n) x (n_depth n) (n_bound n) (n_key n) (n_id n).

(** binder.cpp 16-101, for a buffer of 64: the keys of a chord; [None]: false *)
Definition size : nat := 64.
Fixpoint translate_loop (i : nat) (chord : list N) : option (list N) :=
  let cons1 (k : N) (r : option (list N)) := match r with None => None | Some r => Some (k :: r) end in
  match chord with
  | [] => Some []
  | c :: r =>
    if (size - 1 <=? i)%nat then Some []
    else if c =? 94 then match r with [] => Some [94] | x :: r => cons1 (N.land x 31) (translate_loop (S i) r) end
    else if c =? 92 then
      match r with
      | [] => Some [92]
      | 77 :: r =>
        match r with
        | 45 :: ((67 :: 45 :: x :: r')) => if (size - 1 <=? S i)%nat then None else cons1 27 (cons1 (N.land x 31) (translate_loop (S (S i)) r'))
        | 45 :: 67 :: 45 :: [] => None
        | 45 :: ((_ :: _) as r') => cons1 27 (translate_loop (S i) r')
        | _ => None
        end
      | 67 :: r => match r with 45 :: x :: r' => cons1 (N.land x 31) (translate_loop (S i) r') | _ => None end
      | x :: r => cons1 (if x =? 101 then 27 else if x =? 116 then 9 else if x =? 110 then 10 else if x =? 114 then 13 else if x =? 48 then 0 else x) (translate_loop (S i) r)
      end
    else cons1 c (translate_loop (S i) r)
  end.
(** [esc]: get_bindable_esc() (win_terminal_in.cpp 222-233), null or a sequence of more than one key *)
Definition translate (esc : option (list N)) (chord : list N) : option (list N) :=
  match translate_loop 0 chord with
  | None => None
  | Some out =>
    match out with
    | [27] | 27 :: 0 :: _ => match esc with Some e => translate_loop 0 e | None => Some out end
    | _ => Some out
    end
  end.

(** 106-120 *)
Definition binder0 : binder := mkB [SGroup 0 0; SNode zero_node] [].
(** core/str_hash.h 7-19; [c] is a signed char *)
Definition str_hash (s : list N) : N :=
  fold_left (fun h c => N.lxor ((h * 33) mod 4294967296) (if c <? 128 then c else 4294967040 + c)) s 5381.
(** 123-142; [None]: -1 *)
Fixpoint get_group_loop (fuel : nat) (b : binder) (hash : N) (index : nat) : option nat :=
  match fuel, index with
  | O, _ | _, O => None
  | S fuel, _ =>
    match nth_error (b_nodes b) index with
    | Some (SGroup next h) => if h =? hash then Some (S index) else get_group_loop fuel b hash next
    | _ => None
    end
  end.
Definition get_group (b : binder) (name : list N) : option nat :=
  match name with
  | [] => Some 1%nat
  | _ => match nth_error (b_nodes b) 0 with Some (SGroup next _) => get_group_loop slots b (str_hash name) next | _ => None end
  end.
(** 145-176 *)
Definition create_group (b : binder) (name : list N) : binder * option nat :=
  match name with
  | [] => (b, None)
  | _ =>
    let index := length (b_nodes b) in
    if (slots <? index + 2)%nat then (b, None)
    else
      match b_nodes b with
      | SGroup next h :: r => (mkB (SGroup index h :: r ++ [SGroup next (str_hash name); SNode zero_node]) (b_modules b), Some (S index))
      | _ => (b, None)
      end
  end.

(** 328-347; outer [None]: reads a slot that is no node *)
Fixpoint find_child_loop (fuel : nat) (b : binder) (parent : nat) (key : N) (index : nat) : option nat :=
  if (parent <? index)%nat then
    match fuel with
    | O => None
    | S fuel =>
      match get b index with
      | None => None
      | Some n => if (n_key n =? key) || (n_params n && (48 <=? key) && (key <=? 57)) then Some index else find_child_loop fuel b parent key (n_next n)
      end
    end
  else Some 0%nat.
Definition find_child (b : binder) (parent : nat) (key : N) : option nat :=
  match get b parent with
  | None => None
  | Some n => if n_params n && (48 <=? key) && (key <=? 57) then Some parent else find_child_loop slots b parent key (n_child n)
  end.
(** 377-383 *)
Fixpoint find_tail (fuel : nat) (b : binder) (head : nat) : option nat :=
  match get b head with
  | None => None
  | Some n => if (head <? n_next n)%nat then match fuel with O => None | S fuel => find_tail fuel b (n_next n) end else Some head
  end.
(** 427-435 *)
Definition alloc (b : binder) (n : node) : binder := mkB (b_nodes b ++ [SNode n]) (b_modules b).
Definition full (b : binder) : bool := (slots <? length (b_nodes b) + 1)%nat.
(** 350-374; [Some (b, 0)]: no slot left *)
Definition add_child (b : binder) (parent : nat) (key : N) (has_params : bool) : option (binder * nat) :=
  if full b then Some (b, 0%nat)
  else
    let child := length (b_nodes b) in
    match get b parent with
    | None => None
    | Some p =>
      let addee := mkN parent 0 has_params 0 0 false key 0 in
      if (n_child p <? parent)%nat then Some (alloc (put b parent (with_child p child)) addee, child)
      else
        match find_tail slots b (n_child p) with
        | None => None
        | Some tail => match get b tail with None => None | Some t => Some (alloc (put b tail (with_next t child)) addee, child) end
        end
    end.
(** 316-325 *)
Definition insert_child (b : binder) (parent : nat) (key : N) (has_params : bool) : option (binder * nat) :=
  match find_child b parent key with
  | None => None
  | Some O => add_child b parent key has_params
  | Some child => Some (b, child)
  end.
(** 386-402 *)
Definition append (b : binder) (head : nat) (key : N) : option (binder * nat) :=
  if full b then Some (b, 0%nat)
  else
    let index := length (b_nodes b) in
    match find_tail slots b head with
    | None => None
    | Some tail =>
      match get b tail with
      | None => None
      | Some t => Some (alloc (put b tail (with_next t index)) (mkN (n_next t) 0 false 0 0 false key 0), index)
      end
    end.
(** 438-451 *)
Fixpoint index_of (l : list N) (m : N) (i : nat) : option nat := match l with [] => None | x :: l => if x =? m then Some i else index_of l m (S i) end.
Definition add_module (b : binder) (m : N) : binder * option nat :=
  match index_of (b_modules b) m 0 with
  | Some i => (b, Some i)
  | None => if (length (b_modules b) <? max_modules)%nat then (mkB (b_nodes b) (b_modules b ++ [m]), Some (length (b_modules b))) else (b, None)
  end.
(** 229-232 *)
Fixpoint insert_keys (b : binder) (head : nat) (keys : list N) (has_params : bool) : option (binder * nat) :=
  match keys with
  | [] => Some (b, head)
  | k :: keys =>
    match insert_child b head k (has_params && (k =? 42)) with
    | None => None
    | Some (b, O) => Some (b, 0%nat)
    | Some (b, head) => insert_keys b head keys has_params
    end
  end.
(** 188-267, after the chord is translated; [None]: reads a slot that is no node, or before the chord (when the chord is empty
    and its group already has such a binding).  The loop at 243-250 never runs, since it starts with check = head. *)
Definition bind_keys (b : binder) (group : nat) (keys : list N) (m : N) (id : N) (has_params : bool) : option (binder * bool) :=
  let (b, mi) := add_module b m in
  match mi with
  | None => Some (b, false)
  | Some mi =>
    match insert_keys b group keys has_params with
    | None => None
    | Some (b, head) =>
      if ((head =? 0)%nat && negb (match keys with [] => true | _ => false end)) then Some (b, false)
      else
        match get b head with
        | None => None
        | Some n =>
          let r := if n_bound n then match rev keys with [] => None | k :: _ => append b head k end else Some (b, head) in
          match r with
          | None => None
          | Some (b, O) => Some (b, false)
          | Some (b, head) =>
            match get b head with
            | None => None
            | Some n => Some (put b head (mkN (n_next n) mi (n_params n) (n_child n) (length keys mod 16) true (n_key n) id), true)
            end
          end
        end
    end
  end.
Definition bind (esc : option (list N)) (b : binder) (group : nat) (chord : list N) (m : N) (id : N) (has_params : bool) : option (binder * bool) :=
  if (slots <=? group)%nat then Some (b, false)
  else match translate esc chord with None => Some (b, false) | Some keys => bind_keys b group keys m id has_params end.

(** ** bind_resolver *)
(** input_params.h/.cpp *)
Record params := mkP { p_vals : list N; p_len : Z }.
Definition params0 := mkP [] 0.
Definition params_add (p : params) (v : N) (len : N) : params := if (4 <=? length (p_vals p))%nat then p else mkP (p_vals p ++ [v]) (p_len p + Z.of_N len - 1)%Z.
(** bind_resolver.h 62-72: m_keys up to m_key_count *)
Record resolver := mkR { r_node : nat; r_group : nat; r_pending : bool; r_tail : nat; r_params : params; r_acc : N; r_plen : N; r_ppar : bool; r_keys : list N }.
Definition resolver0 := mkR 1 1 false 0 params0 0 0 false [].
(** 11-50: a binding's node, length and parameters *)
Record binding := mkBd { bd_node : nat; bd_len : nat; bd_module : nat; bd_id : N; bd_params : params }.
Definition max_keys : nat := 16.
(** 116-131 *)
Definition reset (r : resolver) : resolver := mkR (r_group r) (r_group r) false 0 params0 0 0 false [].
(** 92-107; get_node(group - 1).is_group *)
Definition set_group (b : binder) (r : resolver) (group : nat) : resolver :=
  match group with
  | O => r
  | S g =>
    if (slots <=? group)%nat || (r_group r =? group)%nat || negb (match nth_error (b_nodes b) g with Some (SGroup _ _) => true | _ => false end) then r
    else mkR group group true (r_tail r) params0 0 0 false (r_keys r)
  end.
(** 156-182 *)
Definition step_impl (b : binder) (r : resolver) (key : N) : option (resolver * bool) :=
  match find_child b (r_node r) key with
  | None => None
  | Some O => Some (r, true)
  | Some next =>
    match get b next with
    | None => None
    | Some n =>
      let r :=
        if n_params n then mkR (r_node r) (r_group r) (r_pending r) (r_tail r) (r_params r) ((r_acc r * 10 + (65536 + key - 48)) mod 65536) ((r_plen r + 1) mod 256) true (r_keys r)
        else if r_ppar r then mkR (r_node r) (r_group r) (r_pending r) (r_tail r) (params_add (r_params r) (r_acc r) (r_plen r)) 0 0 false (r_keys r)
        else r in
      Some (mkR next (r_group r) (r_pending r) (r_tail r) (r_params r) (r_acc r) (r_plen r) (r_ppar r) (r_keys r), (n_child n =? 0)%nat)
    end
  end.
(** 140-153 *)
Definition step (b : binder) (r : resolver) (key : N) : option (resolver * bool) :=
  if (max_keys <=? length (r_keys r))%nat then Some (reset r, false)
  else step_impl b (mkR (r_node r) (r_group r) (r_pending r) (r_tail r) (r_params r) (r_acc r) (r_plen r) (r_ppar r) (r_keys r ++ [key])) key.
(** 199-201 *)
Fixpoint push (b : binder) (r : resolver) (keys : list N) : option resolver :=
  match keys with
  | [] => Some r
  | k :: keys => match step_impl b r k with None => None | Some (r, true) => Some r | Some (r, false) => push b r keys end
  end.
Definition at_node (r : resolver) (i : nat) : resolver := mkR i (r_group r) (r_pending r) (r_tail r) (r_params r) (r_acc r) (r_plen r) (r_ppar r) (r_keys r).
(** enough for any walk: nodes of at most 16 levels *)
Definition walk_fuel : nat := slots * 17.
(** 205-227; the outer [None]: a slot that is no node, or an index outside m_keys *)
Fixpoint walk (fuel : nat) (b : binder) (r : resolver) : option (resolver * option binding) :=
  match r_node r with
  | O => Some (reset r, None)
  | S _ =>
    match fuel with
    | O => None
    | S fuel =>
      match get b (r_node r) with
      | None => None
      | Some n =>
        let i := r_node r in
        let r := at_node r (n_next n) in
        if n_bound n then
          let ki := (Z.of_nat (r_tail r) + Z.of_nat (n_depth n) + p_len (r_params r) - 1)%Z in
          let hit := mkBd i (Nat.max 1 (n_depth n) + Z.to_nat (p_len (r_params r))) (n_module n) (n_id n) (r_params r) in
          if n_key n =? 0 then Some (r, Some hit)
          else if (0 <=? ki)%Z then
            match nth_error (r_keys r) (Z.to_nat ki) with
            | None => None
            | Some k => if n_key n =? k then Some (r, Some hit) else walk fuel b r
            end
          else walk fuel b r
        else walk fuel b r
      end
    end
  end.
(** 185-232 *)
Definition next (b : binder) (r : resolver) : option (resolver * option binding) :=
  if r_pending r then
    let r := mkR (r_node r) (r_group r) false (r_tail r) (r_params r) (r_acc r) (r_plen r) (r_ppar r) (r_keys r) in
    let keys := skipn (r_tail r) (r_keys r) in
    if (length keys =? 0)%nat || (max_keys <=? length keys)%nat then Some (reset r, None)
    else match push b r keys with None => None | Some r => walk walk_fuel b r end
  else walk walk_fuel b r.
(** 257-267 *)
Definition claim (r : resolver) (bd : binding) : resolver :=
  mkR (r_group r) (r_group r) true (r_tail r + bd_len bd) (r_params r) (r_acc r) (r_plen r) (r_ppar r) (r_keys r).
(** 61-68: the chord *)
Definition chord_of (r : resolver) (bd : binding) : list N := firstn (bd_len bd) (skipn (r_tail r) (r_keys r)).
