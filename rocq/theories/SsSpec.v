(** What a session stream is to be: a file, that is a string of bytes, with handles that have a position in it.  Nothing here refers to the memory
    of the implementation or to how it reads and writes in pieces. *)
From Verif Require Import Base SsModel.
Open Scope nat_scope.

(** text mode: newline is written as CR LF; CR LF is read as newline *)
Fixpoint totext (s : bytes) : bytes := match s with [] => [] | c :: s' => if (c =? 10)%N then 13%N :: 10%N :: totext s' else c :: totext s' end.
Fixpoint fromtext (s : bytes) : bytes :=
  match s with
  | [] => []
  | c :: s' => match s' with
               | d :: s'' => if ((c =? 13) && (d =? 10))%N then 10%N :: fromtext s'' else c :: fromtext s'
               | [] => [c]
               end
  end.
(** the characters a reader sees, each with the number of bytes it takes *)
Fixpoint chars (text : bool) (s : bytes) : list (N * nat) :=
  match s with
  | [] => []
  | c :: s' => match s' with
               | d :: s'' => if text && ((c =? 13) && (d =? 10))%N then (10%N, 2) :: chars text s'' else (c, 1) :: chars text s'
               | [] => [(c, 1)]
               end
  end.
Definition size_of (l : list (N * nat)) : nat := fold_right (fun c n => snd c + n) 0 l.
(** a line: up to the first newline, and the rest *)
Fixpoint first_line (s : bytes) : bytes * bool := match s with [] => ([], false) | c :: s' => if (c =? 10)%N then ([], true) else let '(l, b) := first_line s' in (c :: l, b) end.
Definition drop_cr (l : bytes) : bytes := if (last l 0 =? 13)%N then removelast l else l.

Section Spec.
Variable MX : nat.
(** writing s at p; a file has at most MX - 1 bytes *)
Definition overwrite (p : nat) (s file : bytes) : bytes := firstn p file ++ s ++ skipn (p + length s) file.
Definition fits (p : nat) (s : bytes) : bytes := firstn (MX - 1 - p) s.

Record fhandle := mkFh { fh_file : option nat; fh_read : bool; fh_write : bool; fh_append : bool; fh_text : bool; fh_pos : nat }.
Record files := mkFs { fs_files : list (bytes * bytes); fs_handles : list fhandle }.
Definition to_pos (p : nat) (h : fhandle) : fhandle := mkFh (fh_file h) (fh_read h) (fh_write h) (fh_append h) (fh_text h) p.

(** the documented modes: how it is opened if there is the file, and whether it is made if there is none *)
Inductive how := Keep | Erase | Refuse.
Definition mode_of (m : bytes) : option (how * bool * bool * bool * bool) :=   (* how, made, read, write, append *)
  if beq m [114]%N then Some (Keep, false, true, false, false)                       (* r *)
  else if beq m [119]%N then Some (Erase, true, false, true, false)                  (* w *)
  else if beq m [119; 120]%N then Some (Refuse, true, false, true, false)            (* wx *)
  else if beq m [97]%N then Some (Keep, true, false, true, true)                     (* a *)
  else if beq m [114; 43]%N then Some (Keep, false, true, true, false)               (* r+ *)
  else if beq m [119; 43]%N then Some (Erase, true, true, true, false)               (* w+ *)
  else if beq m [119; 43; 120]%N then Some (Refuse, true, true, true, false)         (* w+x *)
  else if beq m [97; 43]%N then Some (Keep, true, true, true, true)                  (* a+ *)
  else None.
(** a b at the end for binary *)
Definition split_mode (m : bytes) : option (how * bool * bool * bool * bool) * bool :=
  match mode_of m with Some x => (Some x, true) | None => if (last m 0 =? 98)%N then (mode_of (removelast m), false) else (None, true) end.
Fixpoint find_file (n : nat) (name : bytes) (l : list (bytes * bytes)) : option nat := match l with [] => None | (x, _) :: l' => if beq x name then Some n else find_file (S n) name l' end.
Definition f_open (name mode : bytes) (w : files) : files * res :=
  match name, split_mode mode with
  | [], _ => (w, Failed)
  | _, (None, _) => (w, Error)
  | _, (Some (hw, made, rd, wr, ap), text) =>
      let opened i fs := (mkFs fs (fs_handles w ++ [mkFh (Some i) rd wr ap text 0]), Opened (length (fs_handles w))) in
      match find_file 0 name (fs_files w) with
      | Some i => match hw with
                  | Keep => opened i (fs_files w)
                  | Erase => opened i (match nth_error (fs_files w) i with Some (n, _) => set_nth i (n, []) (fs_files w) | None => fs_files w end)
                  | Refuse => (w, Failed)
                  end
      | None => if made then opened (length (fs_files w)) (fs_files w ++ [(name, [])]) else (w, Failed)
      end
  end.
(** writing: as much as fits is written; success is that all was *)
Fixpoint f_write_all (text append : bool) (strs : list bytes) (p : nat) (file : bytes) : bytes * nat * bool :=
  match strs with
  | [] => (file, p, true)
  | s :: strs' =>
      let p := if append then length file else p in
      let s := if text then totext s else s in
      let w := fits p s in
      let file := overwrite p w file in
      if length w =? length s then f_write_all text append strs' (p + length w) file else (file, p + length w, false)
  end.
(** reading *)
Definition f_read_one (f : fmt) (h : fhandle) (file : bytes) : option bytes * nat :=
  let p := fh_pos h in
  let rest := skipn p file in
  let cs := chars (fh_text h) rest in
  let line (chop : bool) :=
    match rest with
    | [] => (None, p)
    | _ => let '(l, nl) := first_line rest in
           if nl then (Some ((if fh_text h then drop_cr l else l) ++ (if chop then [] else [10%N])), p + length l + 1) else (Some l, p + length l)
    end in
  match f with
  | Chars O => (match rest with [] => None | _ => Some [] end, p)
  | Chars n => (match cs with [] => None | _ => Some (map fst (firstn n cs)) end, p + size_of (firstn n cs))
  | Line => line true
  | LineL => line false
  | All => (Some (map fst cs), p + length rest)
  end.
Fixpoint f_read_fmts (fs : list fmt) (h : fhandle) (file : bytes) : list (option bytes) * nat :=
  match fs with
  | [] => ([], fh_pos h)
  | f :: fs' =>
      match f_read_one f h file with
      | (Some p, q) => let '(r, q) := f_read_fmts fs' (to_pos q h) file in (Some p :: r, q)
      | (None, q) => ([None], q)
      end
  end.
Definition on_handle (hi : nat) (w : files) (f : fhandle -> bytes -> bytes * fhandle * res) : files * res :=
  match nth_error (fs_handles w) hi with
  | Some h => match fh_file h with
              | Some i => match nth_error (fs_files w) i with
                          | Some (name, file) => let '(file, h, r) := f h file in (mkFs (set_nth i (name, file) (fs_files w)) (set_nth hi h (fs_handles w)), r)
                          | None => (w, Error)
                          end
              | None => (w, Error)
              end
  | None => (w, Error)
  end.
(** a position before the beginning is an error in Lua (nil and a message), and the position stays; positions go up to MX *)
Definition f_seek (wh : whence) (z : Z) (h : fhandle) (file : bytes) : fhandle * res :=
  let base := match wh with Set_ => 0 | Cur => fh_pos h | End_ => length file end in
  let p := (Z.of_nat base + z)%Z in
  if (p <? 0)%Z then (h, Failed) else let p := Nat.min (Z.to_nat p) MX in (to_pos p h, Pos p).
Definition fstep (o : op) (w : files) : files * res :=
  match o with
  | Open name mode => f_open name mode w
  | Write hi strs => on_handle hi w (fun h file => if fh_write h then let '(file, p, ok) := f_write_all (fh_text h) (fh_append h) strs (fh_pos h) file in (file, to_pos p h, if ok then Done else Failed) else (file, h, Failed))
  | Read hi fs => on_handle hi w (fun h file => if fh_read h then let '(r, p) := f_read_fmts (match fs with [] => [Line] | _ => fs end) h file in (file, to_pos p h, Got r) else (file, h, Failed))
  | Seek hi wh z => on_handle hi w (fun h file => let '(h, r) := f_seek wh z h file in (file, h, r))
  | Trunc hi => on_handle hi w (fun h file => (if fh_write h then firstn (fh_pos h) file else file, h, Done))
  | Close hi => on_handle hi w (fun h file => (file, mkFh None (fh_read h) (fh_write h) (fh_append h) (fh_text h) (fh_pos h), Done))
  end.
Fixpoint frun (ops : list op) (w : files) : files * list res :=
  match ops with
  | [] => (w, [])
  | o :: ops' => let '(w, r) := fstep o w in let '(w, rs) := frun ops' w in (w, r :: rs)
  end.
Definition fstart : files := mkFs [] [].

(** ** What is left out, because it is wrong (see the refuted statements) *)
Variable B : nat.
(** a line that the reading in pieces of B - 1 bytes gets right *)
Definition fine_line (text : bool) (rest : bytes) : Prop :=
  let '(l, nl) := first_line rest in
  ~ In 0%N l /\ (text = true -> nl = true -> last l 0%N = 13%N -> l <> [] -> length l mod (B - 1) <> 0).
Definition fine_fmt (f : fmt) (h : fhandle) (file : bytes) : Prop :=
  match f with Chars n => 0 < n | Line | LineL => fine_line (fh_text h) (skipn (fh_pos h) file) | All => True end.
Fixpoint fine_fmts (fs : list fmt) (h : fhandle) (file : bytes) : Prop :=
  match fs with
  | [] => True
  | f :: fs' => fine_fmt f h file /\ match f_read_one f h file with (Some _, q) => fine_fmts fs' (to_pos q h) file | (None, _) => True end
  end.
Definition on (hi : nat) (w : files) (P : fhandle -> bytes -> Prop) : Prop :=
  match nth_error (fs_handles w) hi with
  | Some h => match fh_file h with
              | Some i => match nth_error (fs_files w) i with Some (_, file) => P h file | None => True end
              | None => True
              end
  | None => True
  end.
(** no writing past the end; no seeking to before the beginning *)
Definition fine (o : op) (w : files) : Prop :=
  match o with
  | Write hi strs => on hi w (fun h file => fh_write h = true -> fh_append h = true \/ fh_pos h <= length file)
  | Read hi fs => on hi w (fun h file => fh_read h = true -> fine_fmts (match fs with [] => [Line] | _ => fs end) h file)
  | Seek hi wh z => on hi w (fun h file => (0 <= Z.of_nat (match wh with Set_ => 0 | Cur => fh_pos h | End_ => length file end) + z)%Z)
  | _ => True
  end.
Fixpoint fine_run (ops : list op) (w : files) : Prop := match ops with [] => True | o :: ops' => fine o w /\ fine_run ops' (fst (fstep o w)) end.
End Spec.
