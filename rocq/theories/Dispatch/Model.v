(** Model of patina_dxe_core/src/dispatcher.rs: finding drivers in firmware
    volumes, deciding which may run, and running them.

    What an image does while it runs is not code of this module: it is given
    by an oracle that may look at everything that happened so far.  The same
    oracle answers for loading an image, for the security protocol, for
    installing a nested volume, and for event notifications that run whenever
    the dispatcher's lock (a TPL mutex) is given back.  The list of events is
    not in the code; nothing but the oracle reads it.  Not modelled:
    performance measurements, logging, the device path made for a driver
    (366-408), the section extractor. *)
From Verif Require Import Base.Prelude Depex.Model.
Local Open Scope N_scope.

(** efi::Status values that dispatcher.rs:234-256 tells apart. *)
Inductive status := SNotReady | SSuccess | SViolation | SOther.

(** dispatcher.rs:73-81 PendingDriver.  [d_id] is not in the code: it numbers
    the drivers as they are found.  [d_image]: whether there is an image
    handle. *)
Record driver := Driver { d_id : nat; d_fv : N; d_file : bytes; d_depex : option (list opcode); d_image : bool; d_status : status }.

(** dispatcher.rs:83-88 PendingFirmwareVolumeImage; the sections by number. *)
Record fv_image := FvImage { i_fv : N; i_file : bytes; i_depex : option (list opcode); i_sections : nat }.

(** A file of a volume as dispatcher.rs:347-457 looks at it: a driver with or
    without PE32 section, a volume image with so many volume sections,
    anything else, or one that cannot be read. *)
Inductive ffile := FDriver (name : bytes) (depex : option bytes) (pe32 : bool) | FVolume (name : bytes) (depex : option bytes) (sections : nat) | FOther | FBad.

(** What an image or a notification may do that matters here. *)
Inductive action :=
| Publish (g : bytes) | Withdraw (g : bytes)                        (* protocols come and go *)
| Volumes (l : list (N * option (list ffile)))                      (* the volume protocol notification, with the handles it finds *)
| Schedule (fv : N) (file : bytes) | Trust (fv : N) (file : bytes) | Dispatch.

Inductive derr := DAlreadyStarted | DNotFound.
Inductive load_result := LoadFailed | Loaded (s : status).

(** What happened; [p] numbers the passes. *)
Inductive event :=
| EvFound (id : nat) (fv : N) (file : bytes) (depex : option bytes)
| EvPass (p : nat) (protocols : list bytes)
| EvTry (p id : nat)
| EvLoad (id : nat) (r : load_result)
| EvStart (p id : nat)
| EvSchedule (fv : N) (file : bytes) (found : bool)
| EvTrust (fv : N) (file : bytes) (found : bool)
| EvInstall (ok : bool)
| EvReturn (r : res derr unit).

Record oracle := Oracle {
  o_image : list event -> list action;
  o_notify : list event -> list action;
  o_load : list event -> load_result;
  o_auth : list event -> bool;
  o_install : list event -> bool }.

(** dispatcher.rs:133-143 DispatcherContext, with the protocols that are
    registered, the events (newest first), and two counters. *)
Record world := World {
  w_executing : bool; w_arch : bool;
  w_pending : list driver; w_images : list fv_image;
  w_before : list (bytes * list driver); w_after : list (bytes * list driver);
  w_processed : list N;
  w_protocols : list bytes; w_events : list event; w_next : nat; w_pass : nat }.

Definition set_pending (w : world) (l : list driver) : world :=
  World (w_executing w) (w_arch w) l (w_images w) (w_before w) (w_after w) (w_processed w) (w_protocols w) (w_events w) (w_next w) (w_pass w).
Definition set_images (w : world) (l : list fv_image) : world :=
  World (w_executing w) (w_arch w) (w_pending w) l (w_before w) (w_after w) (w_processed w) (w_protocols w) (w_events w) (w_next w) (w_pass w).
Definition set_protocols (w : world) (l : list bytes) : world :=
  World (w_executing w) (w_arch w) (w_pending w) (w_images w) (w_before w) (w_after w) (w_processed w) l (w_events w) (w_next w) (w_pass w).
Definition emit (w : world) (e : event) : world :=
  World (w_executing w) (w_arch w) (w_pending w) (w_images w) (w_before w) (w_after w) (w_processed w) (w_protocols w) (e :: w_events w) (w_next w) (w_pass w).
Definition process (w : world) (h : N) : world :=
  World (w_executing w) (w_arch w) (w_pending w) (w_images w) (w_before w) (w_after w) (h :: w_processed w) (w_protocols w) (w_events w) (w_next w) (w_pass w).
(** A new pending driver; 410-418. *)
Definition found (w : world) (h : N) (file : bytes) (depex : option bytes) : world :=
  World (w_executing w) (w_arch w)
        (w_pending w ++ [Driver (w_next w) h file (option_map depex_from depex) false SNotReady])
        (w_images w) (w_before w) (w_after w) (w_processed w) (w_protocols w) (EvFound (w_next w) h file depex :: w_events w) (S (w_next w)) (w_pass w).

(** How a computation ends: with a value, out of fuel, or in a panic. *)
Inductive outcome (A : Type) := Done (a : A) | OutOfFuel | Crashed.
Arguments Done {A} a.
Arguments OutOfFuel {A}.
Arguments Crashed {A}.
Definition run (A : Type) := (outcome A * world)%type.
Definition and_then {A B} (r : run A) (k : A -> world -> run B) : run B :=
  match r with (Done a, w) => k a w | (OutOfFuel, w) => (OutOfFuel, w) | (Crashed, w) => (Crashed, w) end.

(** dispatcher.rs:347-457, the files of one volume; [FBad] is the [?] of 348
    or 352, which ends in the [expect] of 530. *)
Fixpoint add_files (w : world) (h : N) (l : list ffile) : run unit :=
  match l with
  | [] => (Done tt, w)
  | FDriver name depex pe32 :: l' => add_files (if pe32 then found w h name depex else w) h l'
  | FVolume name depex n :: l' =>
      add_files (match n with O => w | _ => set_images w (w_images w ++ [FvImage h name (option_map depex_from depex) n]) end) h l'
  | FOther :: l' => add_files w h l'
  | FBad :: _ => (Crashed, w)
  end.

(** dispatcher.rs:300-461 add_fv_handles; [None] is a volume that has no
    address or cannot be read (320-345). *)
Fixpoint add_fv_handles (w : world) (l : list (N * option (list ffile))) : run unit :=
  match l with
  | [] => (Done tt, w)
  | (h, contents) :: l' =>
      if existsb (N.eqb h) (w_processed w) then add_fv_handles w l'
      else
        let w := process w h in
        match contents with
        | None => add_fv_handles w l'
        | Some files => and_then (add_files w h files) (fun _ w => add_fv_handles w l')
        end
  end.

(** dispatcher.rs:463-476 core_schedule: the first pending driver of that
    file and volume that waits to be scheduled. *)
Fixpoint schedule_in (h : N) (file : bytes) (l : list driver) : option (list driver) :=
  match l with
  | [] => None
  | d :: l' =>
      match d_depex d with
      | Some e =>
          if (d_fv d =? h) && bytes_eqb (d_file d) file && is_sor e
          then Some (Driver (d_id d) (d_fv d) (d_file d) (Some (schedule e)) (d_image d) (d_status d) :: l')
          else option_map (cons d) (schedule_in h file l')
      | None => option_map (cons d) (schedule_in h file l')
      end
  end.
Definition core_schedule (w : world) (h : N) (file : bytes) : world :=
  match schedule_in h file (w_pending w) with
  | Some l => emit (set_pending w l) (EvSchedule h file true)
  | None => emit w (EvSchedule h file false)
  end.

(** dispatcher.rs:478-487 core_trust. *)
Fixpoint trust_in (h : N) (file : bytes) (l : list driver) : option (list driver) :=
  match l with
  | [] => None
  | d :: l' =>
      if (d_fv d =? h) && bytes_eqb (d_file d) file
      then Some (Driver (d_id d) (d_fv d) (d_file d) (d_depex d) (d_image d) SSuccess :: l')
      else option_map (cons d) (trust_in h file l')
  end.
Definition core_trust (w : world) (h : N) (file : bytes) : world :=
  match trust_in h file (w_pending w) with
  | Some l => emit (set_pending w l) (EvTrust h file true)
  | None => emit w (EvTrust h file false)
  end.

Section Passes.
  Variable o : oracle.
  (** A dispatch asked for by an image, see [core_dispatcher]. *)
  Variable nested : world -> run (res derr unit).

  Fixpoint acts (l : list action) (w : world) : run unit :=
    match l with
    | [] => (Done tt, w)
    | Publish g :: l' => acts l' (set_protocols w (g :: w_protocols w))
    | Withdraw g :: l' => acts l' (set_protocols w (filter (fun x => negb (bytes_eqb g x)) (w_protocols w)))
    | Volumes v :: l' => and_then (add_fv_handles w v) (fun _ w => acts l' w)
    | Schedule h f :: l' => acts l' (core_schedule w h f)
    | Trust h f :: l' => acts l' (core_trust w h f)
    | Dispatch :: l' => and_then (nested w) (fun r w => acts l' (emit w (EvReturn r)))
    end.

  (** The lock is given back: notifications may run. *)
  Definition yield (w : world) : run unit := acts (o_notify o (w_events w)) w.

  (** BTreeMap::entry(guid).or_default().push(driver). *)
  Fixpoint push_assoc (m : list (bytes * list driver)) (g : bytes) (d : driver) : list (bytes * list driver) :=
    match m with
    | [] => [(g, [d])]
    | (g', l) :: m' => if bytes_eqb g g' then (g', l ++ [d]) :: m' else (g', l) :: push_assoc m' g d
    end.
  (** BTreeMap::remove(guid).unwrap_or_default(). *)
  Fixpoint take_assoc (m : list (bytes * list driver)) (g : bytes) : list driver * list (bytes * list driver) :=
    match m with
    | [] => ([], [])
    | (g', l) :: m' => let (x, r) := take_assoc m' g in if bytes_eqb g g' then (l ++ x, r) else (x, (g', l) :: r)
    end.

  (** dispatcher.rs:181-184. *)
  Definition evaluate (ps : list bytes) (arch : bool) (d : driver) : bool * driver :=
    match d_depex d with
    | Some e => let (r, e') := eval ps e in (r, Driver (d_id d) (d_fv d) (d_file d) (Some e') (d_image d) (d_status d))
    | None => (arch, d)
    end.

  (** dispatcher.rs:178-199.  The loop's lists: those that may run, those
      that stay pending, and the two maps. *)
  Fixpoint sort_out (ps : list bytes) (arch : bool) (cands ready pending : list driver) (before after : list (bytes * list driver))
    : list driver * list driver * list (bytes * list driver) * list (bytes * list driver) :=
    match cands with
    | [] => (ready, pending, before, after)
    | c :: cs =>
        let (ok, c) := evaluate ps arch c in
        if ok then sort_out ps arch cs (ready ++ [c]) pending before after
        else
          match match d_depex c with Some e => is_associated e | None => None end with
          | Some (ABefore g) => sort_out ps arch cs ready pending (push_assoc before g c) after
          | Some (AAfter g) => sort_out ps arch cs ready pending before (push_assoc after g c)
          | None => sort_out ps arch cs ready (pending ++ [c]) before after
          end
    end.

  (** dispatcher.rs:202-212. *)
  Fixpoint line_up (ready : list driver) (before after : list (bytes * list driver))
    : list driver * list (bytes * list driver) * list (bytes * list driver) :=
    match ready with
    | [] => ([], before, after)
    | d :: ds =>
        let (b, before) := take_assoc before (d_file d) in
        let (a, after) := take_assoc after (d_file d) in
        let '(r, before, after) := line_up ds before after in
        (b ++ d :: a ++ r, before, after)
    end.

  (** dispatcher.rs:46-71. The GUIDs as they lie in memory. *)
  Definition ALL_ARCH : list bytes :=
    [ [0xf6;0x3f;0x5e;0x66;0xcc;0x46;0xd4;0x11;0x9a;0x38;0x00;0x90;0x27;0x3f;0xc1;0x4d];
      [0xb1;0xcc;0xba;0x26;0x42;0x6f;0xd4;0x11;0xbc;0xe7;0x00;0x80;0xc7;0x3c;0x88;0x81];
      [0xb2;0xcc;0xba;0x26;0x42;0x6f;0xd4;0x11;0xbc;0xe7;0x00;0x80;0xc7;0x3c;0x88;0x81];
      [0x72;0x70;0xa9;0x1d;0xdc;0xbd;0x30;0x4b;0x99;0xf1;0x72;0xa0;0xb5;0x6f;0xff;0x2a];
      [0x87;0xac;0xcf;0x27;0xcc;0x46;0xd4;0x11;0x9a;0x38;0x00;0x90;0x27;0x3f;0xc1;0x4d];
      [0x88;0xac;0xcf;0x27;0xcc;0x46;0xd4;0x11;0x9a;0x38;0x00;0x90;0x27;0x3f;0xc1;0x4d];
      [0xe1;0xb4;0xdf;0xb7;0x2f;0x05;0x9f;0x44;0x87;0xbe;0x98;0x18;0xfc;0x91;0xb7;0x33];
      [0xe3;0x23;0x64;0xa4;0x17;0x46;0xf1;0x49;0xb9;0xff;0xd1;0xbf;0xa9;0x11;0x58;0x39];
      [0xb3;0xcc;0xba;0x26;0x42;0x6f;0xd4;0x11;0xbc;0xe7;0x00;0x80;0xc7;0x3c;0x88;0x81];
      [0x18;0xf8;0x41;0x64;0x62;0x63;0x44;0x4e;0xb5;0x70;0x7d;0xba;0x31;0xdd;0x24;0x53];
      [0xe2;0x68;0x56;0x1e;0x81;0x84;0xd4;0x11;0xbc;0xf1;0x00;0x80;0xc7;0x3c;0x88;0x81];
      [0xf5;0x3f;0x5e;0x66;0xcc;0x46;0xd4;0x11;0x9a;0x38;0x00;0x90;0x27;0x3f;0xc1;0x4d] ].
  Definition ALL_ARCH_DEPEX : bytes := flat_map (fun g => 2 :: g) ALL_ARCH ++ repeat 3 11 ++ [8].

  (** dispatcher.rs:171-213: one evaluation, under the lock. *)
  Definition plan (w : world) : list driver * world :=
    let ps := w_protocols w in
    let arch := if w_arch w then true else fst (eval ps (depex_from ALL_ARCH_DEPEX)) in
    let '(ready, pending, before, after) := sort_out ps arch (w_pending w) [] [] (w_before w) (w_after w) in
    let '(scheduled, before, after) := line_up ready before after in
    (scheduled,
     World (w_executing w) arch pending (w_images w) before after (w_processed w) ps (EvPass (w_pass w) ps :: w_events w) (w_next w) (S (w_pass w))).

  (** dispatcher.rs:218-257: one scheduled driver; gives whether it was
      started.  The content of the PE32 section (220) is there: a section
      just read is composed, see [parsed_clean] in Ffs. *)
  Definition run_driver (p : nat) (d : driver) (w : world) : run bool :=
    let w := emit w (EvTry p (d_id d)) in
    and_then
      (if d_image d then (Done d, w)
       else
         and_then (yield w) (fun _ w =>
           let r := o_load o (w_events w) in
           let w := emit w (EvLoad (d_id d) r) in
           (Done match r with
                 | Loaded s => Driver (d_id d) (d_fv d) (d_file d) (d_depex d) true s
                 | LoadFailed => d
                 end, w)))
      (fun d w =>
         if d_image d then
           match d_status d with
           | SSuccess =>
               let w := emit w (EvStart p (d_id d)) in
               and_then (acts (o_image o (w_events w)) w) (fun _ w => (Done true, w))
           | SViolation => and_then (yield (set_pending w (w_pending w ++ [d]))) (fun _ w => (Done false, w))
           | _ => (Done false, w)
           end
         else (Done false, w)).

  (** dispatcher.rs:216-258. *)
  Fixpoint run_all (p : nat) (l : list driver) (attempted : bool) (w : world) : run bool :=
    match l with
    | [] => (Done attempted, w)
    | d :: l' => and_then (run_driver p d w) (fun b w => run_all p l' (attempted || b) w)
    end.

  (** dispatcher.rs:271-290: the sections of one volume image, one after the
      other. *)
  Fixpoint install_sections (n : nat) (attempted : bool) (w : world) : bool * world :=
    match n with
    | O => (attempted, w)
    | S n' =>
        let ok := o_install o (w_events w) in
        install_sections n' (attempted || ok) (emit w (EvInstall ok))
    end.

  (** dispatcher.rs:264-294. *)
  Fixpoint install_images (l : list fv_image) (attempted : bool) (w : world) : bool * world :=
    match l with
    | [] => (attempted, w)
    | c :: l' =>
        let '(ok, e) := match i_depex c with Some e => let (r, e') := eval (w_protocols w) e in (r, Some e') | None => (true, None) end in
        if ok && o_auth o (w_events w)
        then let (attempted, w) := install_sections (i_sections c) attempted w in install_images l' attempted w
        else install_images l' attempted (set_images w (w_images w ++ [FvImage (i_fv c) (i_file c) e (i_sections c)]))
    end.

  (** dispatcher.rs:166-298 dispatch. *)
  Definition dispatch (w : world) : run (res derr bool) :=
    if w_executing w then (Done (Err DAlreadyStarted), w)
    else
      and_then (yield w) (fun _ w =>
        let p := w_pass w in
        let (scheduled, w) := plan w in
        and_then (yield w) (fun _ w =>
          and_then (run_all p scheduled false w) (fun attempted w =>
            let (attempted, w) := install_images (w_images w) attempted (set_images w []) in
            and_then (yield w) (fun _ w => (Done (Ok attempted), w))))).
End Passes.

(** dispatcher.rs:489-504 core_dispatcher: passes until nothing was tried.
    [executing] (490) is never set, so a dispatch asked for by an image (the
    DXE service Dispatch, dxe_services.rs) runs another loop inside. *)
Fixpoint core_dispatcher (o : oracle) (fuel : nat) (something : bool) (w : world) : run (res derr unit) :=
  match fuel with
  | O => (OutOfFuel, w)
  | S f =>
      if w_executing w then (Done (Err DAlreadyStarted), w)
      else
        and_then (dispatch o (core_dispatcher o f false) w) (fun r w =>
          match r with
          | Ok true => core_dispatcher o f true w
          | Ok false => (Done (if something then Ok tt else Err DNotFound), w)
          | Err e => (Done (Err e), w)
          | Panic => (Crashed, w)
          end)
  end.

(** Before anything was found. *)
Definition world0 (protocols : list bytes) : world := World false false [] [] [] [] [] protocols [] 0 0.

(** A history of the dispatcher: requests from outside, one after the other
    (dxe_services.rs Schedule, Trust, Dispatch; dispatcher.rs:506-534, the
    notification for new volumes), with protocols coming and going between
    them.  What the images and notifications do meanwhile is the oracle's. *)
Definition session (o : oracle) (fuel : nat) (protocols : list bytes) (l : list action) : run unit :=
  acts (core_dispatcher o fuel false) l (world0 protocols).
