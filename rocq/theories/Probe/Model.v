(** The calls that record performance, the performance component's start, and memory types.
    sdk/patina/src/performance/{logging,measurement}.rs, components/patina_performance/src/component/performance.rs, sdk/patina/src/efi_types.rs. *)
From Verif Require Import Base.Prelude.
Local Open Scope N_scope.

(** ** Recording *)

(** measurement.rs:387-398. *)
Definition StartImage : N := 1.
Definition LoadImage : N := 2.
Definition DriverBindingSupport : N := 4.
Definition DriverBindingStart : N := 8.
Definition DriverBindingStop : N := 16.
Inductive attribute := PerfEntry | PerfStartEntry | PerfEndEntry.
(** What the measurement protocol is called with.  Strings are their bytes. *)
Record meas := Meas { m_caller : N; m_guid : option N; m_string : option (list N); m_time : N; m_address : N; m_id : N; m_attr : attribute }.
(** The outcome of a call: the calls of the protocol, and the strings that stay allocated. *)
Definition outcome : Type := res unit (list meas * list (list N)).
(** logging.rs:24-50.  A string with a zero byte panics; the copy made of it is given away and never freed. *)
Definition log_perf (caller : N) (guid : option N) (string : option (list N)) (address id : N) : outcome :=
  match string with
  | Some s => if existsb (N.eqb 0) s then Panic else Ok ([Meas caller guid (Some s) 0 address id PerfEntry], [s])
  | None => Ok ([Meas caller guid None 0 address id PerfEntry], [])
  end.
(** The first lines of the functions of logging.rs:97-261. *)
Definition gated (mask bit : N) (o : outcome) : outcome := if N.land mask bit =? 0 then Ok ([], []) else o.
(** logging.rs:53-94: the token, or else the module. *)
Definition pick (token modul : option (list N)) : option (list N) := match token with Some t => Some t | None => modul end.
Definition span_perf (a : attribute) (h : N) (token modul : option (list N)) (time id : N) : outcome := Ok ([Meas h None (pick token modul) time 0 id a], []).

(** The functions of logging.rs:97-475; perf_start and perf_end are Begin and End with identifier 0. *)
Inductive probe :=
| ImageStartBegin (h : N) | ImageStartEnd (h : N) | LoadImageBegin (h : N) | LoadImageEnd (h : N)
| SupportBegin (d c : N) | SupportEnd (d c : N) | StartBegin (d c : N) | StartEnd (d c : N) | StopBegin (d c : N) | StopEnd (d c : N)
| Event (s : list N) (caller : N) | SignalBegin (g : N) (s : list N) (caller : N) | SignalEnd (g : N) (s : list N) (caller : N)
| CallbackBegin (g : N) (s : list N) (caller : N) | CallbackEnd (g : N) (s : list N) (caller : N)
| FunctionBegin (s : list N) (caller : N) | FunctionEnd (s : list N) (caller : N)
| InModuleBegin (s : list N) (caller : N) | InModuleEnd (s : list N) (caller : N)
| CrossModuleBegin (s : list N) (caller : N) | CrossModuleEnd (s : list N) (caller : N)
| Begin (h : N) (token modul : option (list N)) (time id : N) | End (h : N) (token modul : option (list N)) (time id : N).
(** The identifiers are those of record/known.rs:85-128. *)
Definition call (mask : N) (p : probe) : outcome :=
  match p with
  | ImageStartBegin h => gated mask StartImage (log_perf h None None 0 0x01)
  | ImageStartEnd h => gated mask StartImage (log_perf h None None 0 0x02)
  | LoadImageBegin h => gated mask LoadImage (log_perf h None None 0 0x03)
  | LoadImageEnd h => gated mask LoadImage (log_perf h None None 0 0x04)
  | SupportBegin d c => gated mask DriverBindingSupport (log_perf d None None c 0x07)
  | SupportEnd d c => gated mask DriverBindingSupport (log_perf d None None c 0x08)
  | StartBegin d c => gated mask DriverBindingStart (log_perf d None None c 0x05)
  | StartEnd d c => gated mask DriverBindingStart (log_perf d None None c 0x06)
  | StopBegin d c => gated mask DriverBindingStop (log_perf d None None c 0x09)
  | StopEnd d c => gated mask DriverBindingStop (log_perf d None None c 0x0A)
  | Event s caller => log_perf caller None (Some s) 0 0x00
  | SignalBegin g s caller => log_perf caller (Some g) (Some s) 0 0x10
  | SignalEnd g s caller => log_perf caller (Some g) (Some s) 0 0x11
  | CallbackBegin g s caller => log_perf caller (Some g) (Some s) 0 0x20
  | CallbackEnd g s caller => log_perf caller (Some g) (Some s) 0 0x21
  | FunctionBegin s caller => log_perf caller None (Some s) 0 0x30
  | FunctionEnd s caller => log_perf caller None (Some s) 0 0x31
  | InModuleBegin s caller => log_perf caller None (Some s) 0 0x40
  | InModuleEnd s caller => log_perf caller None (Some s) 0 0x41
  | CrossModuleBegin s caller => log_perf caller None (Some s) 0 0x50
  | CrossModuleEnd s caller => log_perf caller None (Some s) 0 0x51
  | Begin h t m time id => span_perf PerfStartEntry h t m time id
  | End h t m time id => span_perf PerfEndEntry h t m time id
  end.
(** Calls one after the other. *)
Fixpoint calls (mask : N) (l : list probe) : outcome :=
  match l with
  | [] => Ok ([], [])
  | p :: l => let* a := call mask p in let* b := calls mask l in Ok (fst a ++ fst b, snd a ++ snd b)
  end.

(** ** The component *)

(** What the component does, in order. *)
Inductive deed := ReportEvent | Records | Protocol | MmEvent | Property.
(** performance.rs:85-167.  [ok] says which services succeed; [hobs] whether there are HOBs of earlier phases;
    if their records cannot be extracted there are none, which is no failure. *)
Definition entry' (ok : deed -> bool) (hobs mm : bool) : bool * list deed :=
  if negb (ok ReportEvent) then (false, [])
  else
    let done := ReportEvent :: (if hobs then [Records] else []) in
    if negb (ok Protocol) then (false, done)
    else
      let done := done ++ [Protocol] in
      if mm && negb (ok MmEvent) then (false, done)
      else
        let done := done ++ (if mm then [MmEvent] else []) in
        if negb (ok Property) then (false, done) else (true, done ++ [Property]).
(** performance.rs:45-82.  [regions] are the communication regions of MM, if there are any HOBs of them: whether each is the user's. *)
Definition entry (enabled state : bool) (ok : deed -> bool) (hobs : bool) (regions : option (list bool)) : bool * list deed :=
  if negb enabled then (true, [])
  else if negb state then (false, [])
  else match regions with
       | None => entry' ok hobs false
       | Some l => if existsb (fun u => u) l then entry' ok hobs true else (true, [])
       end.

(** ** Memory types *)

(** efi_types.rs:17-67.  Simplified: the sixteen standard types are one constructor with their number. *)
Inductive mem_type := Standard (n : N) | Oem (v : N) | Os (v : N).
(** efi_types.rs:73-97. *)
Definition from_efi (v : N) : res unit mem_type :=
  if v <? 16 then Ok (Standard v)
  else if (0x70000000 <=? v) && (v <=? 0x7FFFFFFF) then Ok (Oem v)
  else if (0x80000000 <=? v) && (v <=? 0xFFFFFFFF) then Ok (Os v)
  else Err tt.
(** efi_types.rs:100-123. *)
Definition to_efi (t : mem_type) : N := match t with Standard n => n | Oem v => v | Os v => v end.
