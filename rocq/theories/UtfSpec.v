(** UTF-8 and UTF-16 as defined by the Unicode standard (D91, D92), by arithmetic, independent of the model. *)
From Verif Require Import Base.

(** Nonzero Unicode scalar values. *)
Definition scalar (v : N) : Prop := (0 < v < 55296 \/ 57344 <= v < 1114112)%N.

Definition utf8 (v : N) : list N :=
  (if v <? 128 then [v]
   else if v <? 2048 then [192 + v / 64; 128 + v mod 64]
   else if v <? 65536 then [224 + v / 4096; 128 + v / 64 mod 64; 128 + v mod 64]
   else [240 + v / 262144; 128 + v / 4096 mod 64; 128 + v / 64 mod 64; 128 + v mod 64])%N.

Definition utf16 (v : N) : list N :=
  (if v <? 65536 then [v] else [55296 + (v - 65536) / 1024; 56320 + (v - 65536) mod 1024])%N.

(** The text an iterator at [p] with end [e] ranges over: up to [e], or up to the first NUL. *)
Definition text_at (mem : list N) (e : option nat) (p : nat) (t : list N) : Prop :=
  exists pre post, mem = pre ++ t ++ post /\ length pre = p /\ Forall (fun u => u <> 0%N) t /\
    (e = Some (p + length t) \/
     (hd_error post = Some 0%N /\ match e with None => True | Some e' => p + length t < e' end)).

(** Iterators constructed from a NUL terminated string, or from a range inside the memory. *)
Definition valid_iter (mem : list N) (e : option nat) (p : nat) : Prop :=
  match e with
  | None => In 0%N (skipn p mem)
  | Some e' => p <= e' <= length mem
  end.

(** The target of a conversion: [n] units written into [buf], which has space for [max] units. *)
Definition target (buf : list N) (max : nat) (full : list N) : list N :=
  match max with
  | O => buf
  | S m => let w := firstn m full in w ++ 0%N :: skipn (S (length w)) buf
  end.
