(** Which calls depend on the configuration, and what belongs together. *)
From Verif Require Import Base.Prelude Probe.Model.
Local Open Scope N_scope.

(** The bit of the configuration a call depends on, by number, if any: images started (0), loaded (1), drivers asked (2), started (3), stopped (4). *)
Definition config_bit (p : probe) : option N :=
  match p with
  | ImageStartBegin _ | ImageStartEnd _ => Some 0
  | LoadImageBegin _ | LoadImageEnd _ => Some 1
  | SupportBegin _ _ | SupportEnd _ _ => Some 2
  | StartBegin _ _ | StartEnd _ _ => Some 3
  | StopBegin _ _ | StopEnd _ _ => Some 4
  | _ => None
  end.
Definition wanted (mask : N) (p : probe) : bool := match config_bit p with Some b => N.testbit mask b | None => true end.
(** The string a call is made with. *)
Definition given (p : probe) : option (list N) :=
  match p with
  | Event s _ | SignalBegin _ s _ | SignalEnd _ s _ | CallbackBegin _ s _ | CallbackEnd _ s _ | FunctionBegin s _ | FunctionEnd s _
  | InModuleBegin s _ | InModuleEnd s _ | CrossModuleBegin s _ | CrossModuleEnd s _ => Some s
  | _ => None
  end.
(** The identifiers of EDK II, begin and end. *)
Definition edk_id (p : probe) : option N :=
  match p with
  | Event _ _ => Some 0x00
  | ImageStartBegin _ => Some 0x01 | ImageStartEnd _ => Some 0x02 | LoadImageBegin _ => Some 0x03 | LoadImageEnd _ => Some 0x04
  | StartBegin _ _ => Some 0x05 | StartEnd _ _ => Some 0x06 | SupportBegin _ _ => Some 0x07 | SupportEnd _ _ => Some 0x08 | StopBegin _ _ => Some 0x09 | StopEnd _ _ => Some 0x0A
  | SignalBegin _ _ _ => Some 0x10 | SignalEnd _ _ _ => Some 0x11 | CallbackBegin _ _ _ => Some 0x20 | CallbackEnd _ _ _ => Some 0x21
  | FunctionBegin _ _ => Some 0x30 | FunctionEnd _ _ => Some 0x31 | InModuleBegin _ _ => Some 0x40 | InModuleEnd _ _ => Some 0x41
  | CrossModuleBegin _ _ => Some 0x50 | CrossModuleEnd _ _ => Some 0x51
  | Begin _ _ _ _ _ | End _ _ _ _ _ => None
  end.
(** Who is measured, and what else is told: the controller, or the GUID of the event. *)
Definition who (p : probe) : N :=
  match p with
  | ImageStartBegin h | ImageStartEnd h | LoadImageBegin h | LoadImageEnd h | Begin h _ _ _ _ | End h _ _ _ _ => h
  | SupportBegin d _ | SupportEnd d _ | StartBegin d _ | StartEnd d _ | StopBegin d _ | StopEnd d _ => d
  | Event _ c | FunctionBegin _ c | FunctionEnd _ c | InModuleBegin _ c | InModuleEnd _ c | CrossModuleBegin _ c | CrossModuleEnd _ c => c
  | SignalBegin _ _ c | SignalEnd _ _ c | CallbackBegin _ _ c | CallbackEnd _ _ c => c
  end.
Definition controller (p : probe) : N := match p with SupportBegin _ c | SupportEnd _ c | StartBegin _ c | StartEnd _ c | StopBegin _ c | StopEnd _ c => c | _ => 0 end.
Definition event_guid (p : probe) : option N := match p with SignalBegin g _ _ | SignalEnd g _ _ | CallbackBegin g _ _ | CallbackEnd g _ _ => Some g | _ => None end.
