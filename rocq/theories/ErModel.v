(** Reading the exit code of the last command (clink/lib/src/errfile_reader.cpp 31-133, clink/app/src/host/host.cpp 805-827). *)
From Verif Require Import Base SettingsModel.

Section Reader.
(** MultiByteToWideChar with CP_ACP and back to UTF-8 (124-131) *)
Variable acp : bytes -> bytes.
Definition NUL : byte := ascii_of_N 0.
Definition is_eof (c : byte) : bool := Ascii.eqb c (ascii_of_N 255). (* char c = fgetc: the byte 255 is EOF, too *)
(** 112-115: out is collected up to the end, a NUL or a line feed *)
Fixpoint ansi_loop (l out : bytes) : bytes :=
  match l with [] => out | c :: r => if is_eof c || Ascii.eqb c NUL || Ascii.eqb c LF then out else ansi_loop r (out ++ [c]) end.
Definition ansi (l out : bytes) : option bytes := match l with [] => None | c :: r => if is_eof c then None else Some (ansi_loop l out) end.
(** 88-103, for units below 128: others become a question mark here *)
Definition unit_byte (c1 c2 : byte) : byte := if Ascii.eqb c2 NUL && (N_of_ascii c1 <? 128)%N then c1 else "?"%char.
Definition is_unit (c1 c2 x : byte) : bool := Ascii.eqb c2 NUL && Ascii.eqb c1 x.
Fixpoint wide_loop (l out : bytes) : bytes :=
  match l with c1 :: c2 :: r => if is_unit c1 c2 NUL || is_unit c1 c2 LF then out else wide_loop r (out ++ [unit_byte c1 c2]) | _ => out end.
Definition wide (l out : bytes) : option bytes := match l with _ :: _ :: _ => Some (wide_loop l out) | _ => None end.
(** 117-118 *)
Definition strip_cr (l : bytes) : bytes := match rev l with c :: r => if Ascii.eqb c CR then rev r else l | [] => l end.
(** next, 31-133, called the first time for the file *)
Definition first_line (f : bytes) : option bytes :=
  match f with
  | [] => None
  | [c1] => if Ascii.eqb c1 LF then Some [] else option_map (fun s => acp (strip_cr s)) (ansi [c1] [])
  | c1 :: c2 :: r =>
      if Ascii.eqb c2 NUL then if Ascii.eqb c1 LF then Some [] else option_map strip_cr (wide r [unit_byte c1 c2])
      else if Ascii.eqb c1 LF then Some [] else option_map (fun s => acp (strip_cr s)) (ansi (c2 :: r) [c1])
  end.
(** host.cpp 805-827; [None]: the file cannot be opened *)
Definition errorlevel (f : option bytes) : Z := match f with Some f => match first_line f with Some s => atoi s | None => 0%Z end | None => 0%Z end.
End Reader.
