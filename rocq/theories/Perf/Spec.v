(** What performance records and their table must look like. *)
From Verif Require Import Base.Prelude Base.Bytes Mm.Model Mm.Spec Perf.Model.
Local Open Scope N_scope.

(** A record in memory: type in two bytes, length of the whole in one, revision, data. *)
Definition stored (g : grec) : list N := le_bytes 2 (g_type g) ++ [g_len g; g_rev g] ++ g_data g.

(** Records that can be stored: the length must fit in its byte. *)
Definition well_formed (g : grec) : Prop :=
  g_type g < 65536 /\ g_rev g < 256 /\ bytes_ok (g_data g) /\ g_len g = 4 + N.of_nat (length (g_data g)) /\ g_len g <= 255.

(** Records one after the other. *)
Definition stream (gs : list grec) : list N := concat (map stored gs).

(** What a record should look like when stored. *)
Definition record_of (r : prec) : grec :=
  let data := concat (p_chunks r) in GRec (p_type r) (4 + N.of_nat (length data)) (p_rev r) data.

(** Whether a record can be written where [n] bytes are free: one byte more is wanted where the last value is empty, as the
    data of a generic record may be. *)
Definition ends_empty (r : prec) : Prop := exists cs, p_chunks r = cs ++ [[]].
Definition fits_in (r : prec) (n : N) : Prop := g_len (record_of r) <= n /\ (ends_empty r -> g_len (record_of r) < n).

(** Records that can be added. *)
Definition storable (r : prec) : Prop := well_formed (record_of r) /\ fits_in r 255.

(** The table: "FBPT", the length of everything, the basic boot record (type 2, 48 bytes, revision 2, all zero), and the
    records. *)
Definition table_bytes (gs : list grec) : list N :=
  [70; 66; 80; 84] ++ le_bytes 4 (56 + N.of_nat (length (stream gs))) ++ ([2; 0; 48; 2] ++ repeat 0 44) ++ stream gs.

(** The table was not, or was published. *)
Definition unpublished (f : fbpt) : Prop := exists l, f_recs f = Unpublished l.
Definition published (f : fbpt) : Prop := exists base cap off, f_recs f = Published base cap off.

(** Room that is left for records in a published table. *)
Definition room (f : fbpt) : N := match f_recs f with Published _ cap off => cap - off | Unpublished _ => 0 end.

(** The bytes of memory a published table occupies. *)
Definition in_table (f : fbpt) (x : N) : Prop :=
  match f_recs f with Published base cap _ => f_addr f <= x < base + cap | Unpublished _ => False end.

(** The answer of the page allocator asked for [n] pages: at the wanted address if there is one and it can be had, or else
    anywhere below 4 GiB. *)
Definition granted (at_address : N -> N -> option N) (anywhere : N -> res efi_error N) (wanted : option N) (n : N) (r : res efi_error N) : Prop :=
  (exists p a, wanted = Some p /\ at_address p n = Some a /\ r = Ok a) \/
  ((forall p, wanted = Some p -> at_address p n = None) /\ anywhere n = r).

(** The histories of a table: [reached dbg m f gs] says that [gs] are the records it should have. *)
Inductive reached (dbg : bool) : mem -> fbpt -> list grec -> Prop :=
| r_new m : reached dbg m fbpt_new []
| r_hobs m f gs hobs count b m' f' : reached dbg m f gs -> unpublished f ->
    Forall (fun h => Forall well_formed (snd h)) hobs ->
    merge_hobs dbg m 0 (Unpublished []) (map (fun h => (fst h, stream (snd h))) hobs) = Ok (count, b) ->
    set_perf_records m f b = (m', f') -> reached dbg m' f' (concat (map snd hobs))
| r_added m f gs r m' f' : reached dbg m f gs -> storable r ->
    add_record dbg m f r = (Ok tt, m', f') -> reached dbg m' f' (gs ++ [record_of r])
| r_refused m f gs r e m' f' : reached dbg m f gs -> published f \/ storable r ->
    add_record dbg m f r = (Err e, m', f') -> reached dbg m' f' gs
| r_reported m f gs at_address anywhere prev a m' f' : reached dbg m f gs -> unpublished f ->
    report_table dbg at_address anywhere m f prev = (Ok a, m', f') -> reached dbg m' f' gs
| r_report_failed m f gs at_address anywhere prev e m' f' : reached dbg m f gs -> unpublished f ->
    report_table dbg at_address anywhere m f prev = (Err e, m', f') -> reached dbg m' f' gs
| r_outside m f gs m' : reached dbg m f gs -> (forall x, in_table f x -> m' x = m x) -> reached dbg m' f gs.
