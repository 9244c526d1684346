(** Scrolling a list by dragging the mouse past its edge.
    Modelled: scroll_helper (clink/lib/src/scroll_helper.cpp:9-50) and its use while dragging in the lists:
    selectcomplete_impl.cpp:714, 764-765, 784-821, suggestionlist_impl.cpp:500, 536-537, 551-577 (both tell the helper
    of every scroll) and textlist_impl.cpp:1085, 1133-1157 (which does not).  Simplified: the pointer is over a column;
    how many rows are left beyond the edge is given with each input (SelModel, SlModel and TlModel have the lists). *)
From Verif Require Import Base.
Local Open Scope Z_scope.

(** GetTickCount: 32 bits of milliseconds *)
Definition M : Z := 4294967296.
Definition tick (t : Z) : Z := t mod M.
Definition sub32 (a b : Z) : Z := (a - b) mod M.

(** scroll_helper.h:16-20 *)
Record helper := mk { scroll_tick : Z; accelerate_tick : Z; speed : Z; can : bool }.

(** scroll_helper.cpp:15-19 clear; the speed is left as it was *)
Definition clear (now : Z) (h : helper) : helper := mk (sub32 now 65535) (sub32 now 65535) (speed h) false.

(** scroll_helper.cpp:34-44 on_input *)
Definition on_input (now : Z) (h : helper) : helper :=
  let c := (15 <? sub32 now (scroll_tick h)) in
  let a := if (250 <? sub32 now (scroll_tick h)) then now else accelerate_tick h in
  let d := sub32 now a in
  mk (scroll_tick h) a (if (2000 <? d) then 10 else if (1000 <? d) then 3 else 1) c.

(** scroll_helper.cpp:47-50 on_scroll *)
Definition on_scroll (now : Z) (h : helper) : helper := mk now (accelerate_tick h) (speed h) (can h).

(** One input while the mouse is dragged past the edge, with the rows left beyond it: the rows that the list moves. *)
Definition drag (tells : bool) (now room : Z) (h : helper) : helper * Z :=
  let h := on_input now h in
  if can h && (0 <? room) then ((if tells then on_scroll now h else h), Z.min room (speed h)) else (h, 0).

(** Inputs at the given times (milliseconds since the start of the system); each with the rows moved. *)
Fixpoint drags (tells : bool) (h : helper) (es : list (Z * Z)) : list (Z * Z * Z) :=
  match es with
  | [] => []
  | (t, room) :: r => let '(h', m) := drag tells (tick t) room h in (t, room, m) :: drags tells h' r
  end.
