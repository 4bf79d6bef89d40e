(** What a measurement must record. *)
From Coq Require Import Ascii String.
From Verif Require Import Base.Prelude Base.Bytes Mm.Model Mm.Spec Perf.Model Perf.Spec.
Local Open Scope N_scope.

Definition bytes_of (s : string) : list N := map N_of_ascii (list_ascii_of_string s).

(** The names with a meaning of their own, with the ids of the start and of the end. *)
Definition names : list (list N * (N * N)) :=
  [(bytes_of "StartImage", (0x01, 0x02)); (bytes_of "LoadImage", (0x03, 0x04)); (bytes_of "DB:Start", (0x05, 0x06));
   (bytes_of "DB:Support", (0x07, 0x08)); (bytes_of "DB:Stop", (0x09, 0x0A));
   (bytes_of "PEI", (0x50, 0x51)); (bytes_of "DXE", (0x50, 0x51)); (bytes_of "BDS", (0x50, 0x51));
   (bytes_of "SEC", (0x40, 0x41)); (bytes_of "PEIM", (0x40, 0x41))].
Definition named (s : option (list N)) : Prop := exists x, s = Some x /\ In x (map fst names).

(** The ids with a meaning of their own. *)
Definition known (i : N) : Prop :=
  i <= 0x0A \/ i = 0x10 \/ i = 0x11 \/ i = 0x20 \/ i = 0x21 \/ i = 0x30 \/ i = 0x31 \/ i = 0x40 \/ i = 0x41 \/ i = 0x50 \/ i = 0x51.

Definition start_or_end (a : attr) (p : N * N) : N := match a with PerfStart => fst p | _ => snd p end.

(** The id under which a measurement is recorded; [None] if there is none. *)
Inductive recorded_as (caller : N) (s : option (list N)) (identifier : N) : attr -> option N -> Prop :=
| as_given : recorded_as caller s identifier PerfEntry (Some (identifier mod 65536))
| as_ambiguous a : a <> PerfEntry -> identifier mod 65536 <> 0 -> known (identifier mod 65536) -> named s -> recorded_as caller s identifier a None
| as_start : ~ known (identifier mod 65536) -> ~ named s -> recorded_as caller s identifier PerfStart (Some (16 * (identifier mod 65536 / 16)))
| as_end : ~ known (identifier mod 65536) -> ~ named s ->
    recorded_as caller s identifier PerfEnd (Some (if identifier mod 16 =? 0 then identifier mod 65536 + 1 else identifier mod 65536))
| as_id a : a <> PerfEntry -> identifier mod 65536 <> 0 -> (known (identifier mod 65536) /\ ~ named s \/ ~ known (identifier mod 65536) /\ named s) ->
    recorded_as caller s identifier a (Some (identifier mod 65536))
| as_name a x p : a <> PerfEntry -> identifier mod 65536 = 0 -> s = Some x -> In (x, p) names -> recorded_as caller s identifier a (Some (start_or_end a p))
| as_other_name a x : a <> PerfEntry -> identifier mod 65536 = 0 -> s = Some x -> ~ named s -> recorded_as caller s identifier a (Some (start_or_end a (0x40, 0x41)))
| as_handle a : a <> PerfEntry -> identifier mod 65536 = 0 -> s = None -> caller <> 0 -> recorded_as caller s identifier a (Some (start_or_end a (0x40, 0x41)))
| as_nothing a : a <> PerfEntry -> identifier mod 65536 = 0 -> s = None -> caller = 0 -> recorded_as caller s identifier a None.

(** The name in the record. *)
Definition text (s : option (list N)) : list N := match s with Some x => x | None => bytes_of "unknown name" end.

(** The record: type, length, revision one, and the data: id, no APIC id, time and the rest.  [guid_of] is the GUID of the
    file of the image of the caller, [peek] the sixteen bytes it points to; [count] the images loaded so far, this one
    counted. *)
Definition head (id time : N) : list N := le_bytes 2 id ++ [0; 0; 0; 0] ++ le_bytes 8 time.
Inductive event (guid_of peek : N -> list N) (count caller : N) (guid s : option (list N)) (time address id : N) : attr -> grec -> Prop :=
| ev_module a : id = 0x01 \/ id = 0x02 ->
    event guid_of peek count caller guid s time address id a (GRec 0x1010 34 1 (head id time ++ guid_of caller))
| ev_load a : id = 0x03 \/ id = 0x04 ->
    event guid_of peek count caller guid s time address id a (GRec 0x1013 42 1 (head id time ++ guid_of caller ++ le_bytes 8 count))
| ev_binding a : 0x05 <= id <= 0x09 ->
    event guid_of peek count caller guid s time address id a (GRec 0x1013 42 1 (head id time ++ guid_of caller ++ le_bytes 8 address))
| ev_stopped a : id = 0x0A ->
    event guid_of peek count caller guid s time address id a (GRec 0x1014 43 1 (head id time ++ guid_of caller ++ le_bytes 8 address ++ [0]))
| ev_callback a x g : id = 0x10 \/ id = 0x11 \/ id = 0x20 \/ id = 0x21 -> s = Some x -> guid = Some g -> caller <> 0 ->
    event guid_of peek count caller guid s time address id a (GRec 0x1012 (51 + N.of_nat (length x)) 1 (head id time ++ peek caller ++ g ++ x ++ [0]))
| ev_section a : id = 0 \/ id = 0x30 \/ id = 0x31 \/ id = 0x40 \/ id = 0x41 \/ id = 0x50 \/ id = 0x51 -> caller <> 0 ->
    event guid_of peek count caller guid s time address id a (GRec 0x1011 (35 + N.of_nat (length (text s))) 1 (head id time ++ peek caller ++ text s ++ [0]))
| ev_unknown a : ~ known id -> a <> PerfEntry ->
    event guid_of peek count caller guid s time address id a (GRec 0x1011 (35 + N.of_nat (length (text s))) 1 (head id time ++ guid_of caller ++ text s ++ [0])).

(** Some of them, in order. *)
Inductive sublist {A} : list A -> list A -> Prop :=
| sub_nil : sublist [] []
| sub_keep x a b : sublist a b -> sublist (x :: a) (x :: b)
| sub_skip x a b : sublist a b -> sublist a (x :: b).

(** Management mode hands out [data] in pieces: each answer has at least one byte and at most 1024, as stated, and they are
    the ones asked for. *)
Definition serves (ask : N -> mm_answer) (data : list N) : Prop :=
  forall off, off < N.of_nat (length data) -> exists size bytes, ask off = MmData size bytes /\
    1 <= size <= 1024 /\ off + size <= N.of_nat (length data) /\ length bytes = 1024%nat /\
    firstn (N.to_nat size) bytes = firstn (N.to_nat size) (skipn (N.to_nat off) data).
