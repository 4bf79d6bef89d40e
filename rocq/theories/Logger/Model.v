(** The serial logger.  sdk/patina/src/log.rs, log/serial_logger.rs. *)
From Verif Require Import Base.Prelude Logger.Spec.
From Coq Require Import String.
Local Open Scope N_scope.

(** log's levels, as numbers: LevelFilter::Off is 0. *)
Inductive level := Error | Warn | Info | Debug | Trace.
Definition level_filter (l : level) : N := match l with Error => 1 | Warn => 2 | Info => 3 | Debug => 4 | Trace => 5 end.
Definition level_text (l : level) : text := codes (match l with Error => "ERROR" | Warn => "WARN" | Info => "INFO" | Debug => "DEBUG" | Trace => "TRACE" end)%string.
(** A record; the arguments are given as the text they make. *)
Record record := Rec { r_level : level; r_target : text; r_args : text; r_file : option text; r_line : option N }.
(** Decimal text; a line number has at most ten digits. *)
Fixpoint dec_digits (fuel : nat) (n : N) (acc : text) : text :=
  match fuel with O => acc | S fuel => if n <? 10 then 48 + n :: acc else dec_digits fuel (n / 10) (48 + n mod 10 :: acc) end.
Definition dec (n : N) : text := dec_digits 10 n [].
Definition file_text (r : record) : text := match r_file r with Some f => f | None => codes "unknown" end.
Definition line_text (r : record) : text := dec (match r_line r with Some n => n | None => 0 end).

(** log.rs:43-50. *)
Inductive format := Standard | Json | VerboseJson.
Definition q : text := [34].
Definition nl : text := [10].
(** log.rs:54-98. *)
Definition write (f : format) (r : record) : text :=
  match f with
  | Standard =>
      match r_level r with
      | Trace => codes "TRACE - " ++ file_text r ++ codes ":" ++ line_text r ++ codes ": " ++ r_args r ++ nl
      | l => level_text l ++ codes " - " ++ r_args r ++ nl
      end
  | Json => codes "{" ++ q ++ codes "level" ++ q ++ codes ": " ++ q ++ level_text (r_level r) ++ q ++ codes " " ++ q ++ codes "message" ++ q ++ codes ": " ++ q ++ r_args r ++ q ++ codes "}" ++ nl
  | VerboseJson =>
      codes "{" ++ q ++ codes "level" ++ q ++ codes ": " ++ q ++ level_text (r_level r) ++ q ++ codes ", " ++ q ++ codes "target" ++ q ++ codes ": " ++ q ++ r_target r ++ q
      ++ codes ", " ++ q ++ codes "message" ++ q ++ codes ": " ++ q ++ r_args r ++ q ++ codes ", " ++ q ++ codes "file" ++ q ++ codes ": " ++ q ++ file_text r ++ q
      ++ codes ", " ++ q ++ codes "line" ++ q ++ codes ": " ++ q ++ line_text r ++ q ++ codes "}" ++ nl
  end.

(** serial_logger.rs:20-28. *)
Record logger := Logger { filters : list (text * N); max_level : N; fmt : format }.
(** str::starts_with. *)
Fixpoint starts_with (p l : text) : bool := match p, l with [], _ => true | x :: p, y :: l => (x =? y) && starts_with p l | _, [] => false end.
Fixpoint find_filter (t : text) (fs : list (text * N)) : option N := match fs with [] => None | (n, l) :: fs => if starts_with n t then Some l else find_filter t fs end.
(** serial_logger.rs:49-57. *)
Definition enabled (g : logger) (l : level) (target : text) : bool := level_filter l <=? match find_filter target (filters g) with Some x => x | None => max_level g end.
(** serial_logger.rs:59-64, 83-86: what goes to the serial port. *)
Definition log (g : logger) (r : record) : text := if enabled g (r_level r) (r_target r) then write (fmt g) r else [].
