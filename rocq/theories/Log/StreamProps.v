(** * The text stream through the logger and the parser (C50) *)

From Verif Require Import Base.Prelude Base.Bytes Align.Model Log.Spec Log.Model Log.Proofs Log.Props.
Open Scope N_scope.

(** ** The buffered writer *)

Lemma w_flush_spec w : concat (w_out (w_flush w)) ++ w_buf (w_flush w) = concat (w_out w) ++ w_buf w
  /\ w_buf (w_flush w) = [] .
Proof.
  unfold w_flush. destruct w as [[|x b] o]; cbn [w_buf w_out]; [auto|]. split; [|auto].
  rewrite concat_app. cbn [concat]. now rewrite !app_nil_r.
Qed.

(** Where a chunk may come from: it is a whole piece of 128 bytes or more, or
    a full or partial buffer. *)
Definition chunk_ok (ss : list (list N)) (ch : list N) : Prop :=
  ch <> [] /\ ((length ch <= 128)%nat \/ In ch ss).

Definition w_ok (ss : list (list N)) (w : writer) : Prop :=
  (length (w_buf w) <= 128)%nat /\ Forall (chunk_ok ss) (w_out w).

Lemma w_flush_ok ss w : w_ok ss w -> w_ok ss (w_flush w).
Proof.
  intros [H1 H2]. unfold w_flush. destruct w as [[|x b] o]; cbn [w_buf w_out] in *; [split; auto|].
  split; cbn [w_buf w_out]; [cbn; lia|]. apply Forall_app. split; auto. constructor; [|constructor].
  split; [discriminate|auto].
Qed.

Lemma w_write_spec ss w s : w_ok ss w -> In s ss ->
  exists w', w_write_str w s = Some w' /\ w_ok ss w'
             /\ concat (w_out w') ++ w_buf w' = (concat (w_out w) ++ w_buf w) ++ s.
Proof.
  intros Hw Hin. pose proof Hw as [H1 H2]. unfold w_write_str, WRITER_BUFFER_SIZE.
  destruct (N.of_nat (length s) <? 128) eqn:C.
  - set (w1 := if 128 - N.of_nat (length (w_buf w)) <? N.of_nat (length s) then w_flush w else w).
    assert (K : w_ok ss w1 /\ N.of_nat (length (w_buf w1)) + N.of_nat (length s) <= 128
                /\ concat (w_out w1) ++ w_buf w1 = concat (w_out w) ++ w_buf w).
    { unfold w1. destruct (w_flush_spec w) as [F1 F2].
      destruct (128 - N.of_nat (length (w_buf w)) <? N.of_nat (length s)) eqn:D.
      - split; [apply w_flush_ok; auto|]. rewrite F2 in *. cbn [length]. split; [lia|auto].
      - split; [auto|]. split; [lia|auto]. }
    destruct K as (K1 & K2 & K3).
    replace (128 <? N.of_nat (length (w_buf w1)) + N.of_nat (length s)) with false by lia.
    eexists. split; [reflexivity|]. cbn [w_buf w_out]. split.
    + split; cbn [w_buf w_out]; [rewrite app_length; lia|apply K1].
    + rewrite app_assoc, K3. reflexivity.
  - pose proof (w_flush_ok ss w Hw) as [F1 F2]. destruct (w_flush_spec w) as [F3 F4].
    eexists. split; [reflexivity|]. cbn [w_buf w_out]. split.
    + split; cbn [w_buf w_out]; [exact F1|]. apply Forall_app. split; auto. constructor; [|constructor].
      split; [|auto]. intros ->. cbn in C. discriminate.
    + rewrite concat_app. cbn [concat]. rewrite F4 in *. rewrite !app_nil_r in *. now rewrite F3.
Qed.

Lemma w_write_all_spec ss : forall r w, w_ok ss w -> incl r ss ->
  exists w', w_write_all w r = Some w' /\ w_ok ss w'
             /\ concat (w_out w') ++ w_buf w' = (concat (w_out w) ++ w_buf w) ++ concat r.
Proof.
  induction r as [|s r IH]; intros w Hw Hi; cbn [w_write_all concat].
  - exists w. rewrite app_nil_r. auto.
  - destruct (w_write_spec ss w s Hw) as (w1 & E1 & K1 & K2); [apply Hi; left; auto|]. rewrite E1.
    destruct (IH w1 K1) as (w2 & E2 & L1 & L2); [intros x Hx; apply Hi; right; auto|].
    exists w2. split; [auto|]. split; [auto|]. rewrite L2, K2, <- app_assoc. reflexivity.
Qed.

(** Whatever pieces the formatter produces for a record, the logger never
    panics and hands the log chunks that put together are exactly the
    formatted text; no chunk is empty, and a chunk longer than 128 bytes is
    one of the pieces. *)
Theorem c50_writer ss : exists chunks, log_record ss = Some chunks
  /\ concat chunks = concat ss /\ Forall (chunk_ok ss) chunks.
Proof.
  unfold log_record. destruct (w_write_all_spec ss ss w_new) as (w & E & K1 & K2).
  - split; cbn; [lia|constructor].
  - apply incl_refl.
  - rewrite E. cbn [option_map]. eexists. split; [reflexivity|]. destruct (w_flush_spec w) as [F1 F2].
    split; [|apply (w_flush_ok ss w K1)]. rewrite F2, app_nil_r in F1. rewrite F1, K2. reflexivity.
Qed.

(** Short pieces are packed: a buffer is handed over early only when the next
    piece would not fit. *)
Theorem c50_writer_single ss : (length (concat ss) <= 127)%nat -> concat ss <> [] ->
  log_record ss = Some [concat ss].
Proof.
  intros L Hne.
  assert (G : forall r b, (length b + length (concat r) <= 127)%nat ->
    w_write_all (Writer b []) r = Some (Writer (b ++ concat r) [])).
  { induction r as [|s r IH]; intros b H; cbn [w_write_all concat] in *; [now rewrite app_nil_r|].
    rewrite app_length in H. unfold w_write_str, WRITER_BUFFER_SIZE. cbn [w_buf w_out].
    replace (N.of_nat (length s) <? 128) with true by lia.
    replace (128 - N.of_nat (length b) <? N.of_nat (length s)) with false by lia. cbn [w_buf w_out].
    replace (128 <? N.of_nat (length b) + N.of_nat (length s)) with false by lia.
    rewrite IH by (rewrite app_length; lia). now rewrite app_assoc. }
  unfold log_record, w_new. rewrite (G ss []) by (cbn; lia). cbn [app option_map].
  unfold w_flush. cbn [w_buf w_out]. destruct (concat ss); [congruence|reflexivity].
Qed.

(** ** Writing to port and memory *)

(** All chunks of a record. *)
Fixpoint write_chunks (dbg : bool) (level time : N) (st : list N * option log) (chs : list (list N))
  : option (list N * option log) :=
  match chs with
  | [] => Some st
  | ch :: r => match log_write dbg level time st ch with
               | Some st' => write_chunks dbg level time st' r
               | None => None
               end
  end.

(** Without a memory log all text goes to the port. *)
Theorem c50_port_only dbg level time chs : forall port,
  write_chunks dbg level time (port, None) chs = Some (port ++ concat chs, None).
Proof.
  induction chs as [|ch r IH]; intros port; cbn [write_chunks log_write concat]; [now rewrite app_nil_r|].
  rewrite IH. now rewrite <- app_assoc.
Qed.

Lemma hw_add dbg l e level : let '(_, l') := add_log_entry dbg l e in
  hardware_write_enabled l' level = hardware_write_enabled l level.
Proof.
  unfold add_log_entry. destruct (message_size dbg e); [|reflexivity]. destruct (full_size dbg (l_info l)); [|reflexivity].
  destruct (add32 dbg (i_cur (l_info l)) n); [|reflexivity]. destruct (n1 <=? n0); [|reflexivity].
  destruct (sub32 dbg (i_cur (l_info l)) (i_off (l_info l))); [|reflexivity].
  destruct (negb (l_rw l)); [reflexivity|]. destruct (l_len l <? n2 + n); [reflexivity|].
  destruct (n <? ENTRY_SIZE + e_len e); reflexivity.
Qed.

(** With a memory log with enough room, a record's text is stored after what
    was there, one entry per chunk with the record's level, and goes to the
    port exactly when hardware printing is on for its level. *)
Theorem c50_record dbg level time ss port l old :
  level < 2 ^ 32 -> time < 2 ^ 64 -> Forall bytes_ok ss -> Forall (fun s => N.of_nat (length s) < 2 ^ 16) ss ->
  log_ok l -> Forall entry_ok old -> log_holds l old -> i_disc (l_info l) < 2 ^ 32 ->
  exists chunks, log_record ss = Some chunks /\ concat chunks = concat ss /\
  let es := map (fun ch => Entry 4 level time ch) chunks in
  (total_size es <= i_size (l_info l) - total_size old ->
   exists l', write_chunks dbg level time (port, Some l) chunks
     = Some (if hardware_write_enabled l level then port ++ concat ss else port, Some l')
     /\ iter l' = Some (old ++ es) /\ log_ok l' /\ log_holds l' (old ++ es)).
Proof.
  intros Hlv Ht Hb Hl16 Hl Ho Hh Hd. destruct (c50_writer ss) as (chunks & E1 & E2 & E3).
  exists chunks. split; [auto|]. split; [auto|]. rewrite <- E2.
  assert (Hb2 : bytes_ok (concat chunks)).
  { rewrite E2. clear - Hb. induction Hb; cbn [concat]; [constructor|]. apply bytes_ok_app. auto. }
  assert (Hok : Forall (fun ch => entry_ok (Entry 4 level time ch)) chunks).
  { clear - E3 Hb2 Hlv Ht Hl16. induction E3 as [|ch r Hc F IH]; [constructor|]. cbn [concat] in Hb2. apply bytes_ok_app in Hb2.
    destruct Hb2 as [B1 B2]. constructor; [|auto]. unfold entry_ok, e_len. cbn [e_phase e_level e_time e_data].
    split; [reflexivity|]. split; [auto|]. split; [auto|]. split; [auto|].
    change (2 ^ 16) with 65536. destruct Hc as [_ [Hc|Hc]]; [lia|]. rewrite Forall_forall in Hl16. apply (Hl16 _ Hc). }
  clear E1 E2 E3 Hb Hb2 Hl16. intros es. revert port l old Hl Ho Hh Hd. unfold es. clear es.
  induction Hok as [|ch r He F IH]; intros port l old Hl Ho Hh Hd Hfit; cbn [map total_size write_chunks concat] in *.
  - exists l. rewrite !app_nil_r. split; [destruct (hardware_write_enabled l level); reflexivity|].
    split; [|auto]. apply iter_holds; auto. destruct Hl as (K1 & K2 & K3 & K4). destruct Hh as [Hh _]. lia.
  - unfold log_write. pose proof (add_entry_spec dbg l (Entry 4 level time ch) old Hl Ho He Hh) as A. cbv zeta in A.
    pose proof (hw_add dbg l (Entry 4 level time ch) level) as HW.
    destruct (add_log_entry dbg l (Entry 4 level time ch)) as [o l1]. destruct A as (A1 & A2 & A3 & A4).
    replace (slot_size (Entry 4 level time ch) <=? i_size (l_info l) - total_size old) with true in A4 by lia.
    destruct A4 as (-> & A5 & A6).
    destruct (IH (if hardware_write_enabled l level then port ++ ch else port) l1 (old ++ [Entry 4 level time ch]) A1) as (l' & B1 & B2 & B3 & B4).
    + apply Forall_app. auto.
    + exact A5.
    + rewrite A6. exact Hd.
    + rewrite A3, total_size_app. cbn [total_size]. lia.
    + exists l'. rewrite B1, HW. rewrite <- app_assoc in B2, B4. cbn [app] in B2, B4. split; [|auto].
      destruct (hardware_write_enabled l level); [now rewrite <- app_assoc|reflexivity].
Qed.

(** ** Reading back *)

Definition text (its : list item) : list N := flat_map (fun i => match i with Bytes b => b | Meta _ _ _ => [] end) its.

(** The parser writes the messages' bytes in order, with or without
    metadata. *)
Theorem c50_parse meta l es its : iter l = Some es -> write_log meta l = Some its ->
  text its = concat (map e_data es).
Proof.
  intros H. unfold write_log. rewrite H. intros [= <-]. generalize (@None entry).
  clear. induction es as [|e es IH]; intros c; [reflexivity|]. cbn [write_entries]. unfold text. rewrite flat_map_app.
  cbn [flat_map map concat].
  match goal with |- context [if ?b then [Meta ?x ?y ?z] else []] => destruct b end; cbn [flat_map app]; f_equal; apply IH.
Qed.

(** Metadata is written exactly before the first message, before a message
    that follows a newline, and before a message of another boot phase. *)
Definition starts_line (prev : option entry) (e : entry) : bool :=
  match prev with
  | None => true
  | Some p => (last (e_data p) 0 =? 10) || negb (e_phase p =? e_phase e)
  end.

Fixpoint expected_items (prev : option entry) (es : list entry) : list item :=
  match es with
  | [] => []
  | e :: r => (if starts_line prev e then [Meta (e_level e) (e_phase e) (e_time e)] else [])
              ++ [Bytes (e_data e)] ++ expected_items (Some e) r
  end.

Lemma ends_in_newline_last m : ends_in_newline m = (last m 0 =? 10).
Proof.
  unfold ends_in_newline. destruct (rev m) as [|x r] eqn:E.
  - apply (f_equal (@rev N)) in E. rewrite rev_involutive in E. now subst.
  - apply (f_equal (@rev N)) in E. rewrite rev_involutive in E. subst. cbn [rev]. now rewrite last_last.
Qed.

Theorem c50_metadata l es its : iter l = Some es -> write_log true l = Some its ->
  its = expected_items None es.
Proof.
  intros H. unfold write_log. rewrite H. intros [= <-]. clear.
  assert (G : forall es prev, write_entries true (match prev with Some p => if ends_in_newline (e_data p) then None else Some p | None => None end) es
              = expected_items prev es).
  { clear. induction es as [|e es IH]; intros prev; [reflexivity|]. cbn [write_entries expected_items].
    rewrite <- (IH (Some e)). cbn [app].
    assert (S : starts_line prev e = match (match (match prev with Some p => if ends_in_newline (e_data p) then None else Some p | None => None end)
       with Some c => if negb (e_phase c =? e_phase e) then None else Some c | None => None end) with None => true | _ => false end).
    { destruct prev as [p|]; [|reflexivity]. cbn [starts_line]. rewrite ends_in_newline_last.
      destruct (last (e_data p) 0 =? 10); [reflexivity|]. cbn [orb]. destruct (negb (e_phase p =? e_phase e)); reflexivity. }
    rewrite S. cbn [andb].
    match goal with |- context [match ?c with Some _ => _ | None => true end] => destruct c end; reflexivity. }
  apply (G es None).
Qed.

(** Time of day: with a counter of at least 1000 Hz the printed time is the
    elapsed milliseconds in a 24-hour clock. *)
Theorem c50_time t f : 1000 <= f ->
  exists h m s ms, get_time t f = Ok (inr (h, m, s, ms))
  /\ ((h * 60 + m) * 60 + s) * 1000 + ms = (t / (f / 1000)) mod 86400000
  /\ h < 24 /\ m < 60 /\ s < 60 /\ ms < 1000.
Proof.
  intros Hf. unfold get_time. replace (f =? 0) with false by lia.
  assert (D : f / 1000 <> 0) by (intros K; apply N.div_small_iff in K; lia).
  replace (f / 1000 =? 0) with false by (symmetry; now apply N.eqb_neq).
  set (x := t / (f / 1000)). clearbody x. do 4 eexists. split; [reflexivity|].
  repeat split; try (apply N.mod_lt; discriminate).
  pose proof (N.div_mod x 1000 ltac:(discriminate)) as E1.
  pose proof (N.div_mod (x / 1000) 60 ltac:(discriminate)) as E2.
  pose proof (N.div_mod (x / 1000 / 60) 60 ltac:(discriminate)) as E3.
  pose proof (N.div_mod (x / 1000 / 60 / 60) 24 ltac:(discriminate)) as E4.
  pose proof (N.mod_lt x 1000 ltac:(discriminate)). pose proof (N.mod_lt (x / 1000) 60 ltac:(discriminate)).
  pose proof (N.mod_lt (x / 1000 / 60) 60 ltac:(discriminate)). pose proof (N.mod_lt (x / 1000 / 60 / 60) 24 ltac:(discriminate)).
  set (d4 := x / 1000 / 60 / 60 / 24) in *. set (r4 := (x / 1000 / 60 / 60) mod 24) in *. set (d3 := x / 1000 / 60 / 60) in *.
  set (r3 := (x / 1000 / 60) mod 60) in *. set (d2 := x / 1000 / 60) in *. set (r2 := (x / 1000) mod 60) in *.
  set (d1 := x / 1000) in *. set (r1 := x mod 1000) in *. clearbody d4 r4 d3 r3 d2 r2 d1 r1.
  apply N.mod_unique with (q := d4); lia.
Qed.

(** With a counter frequency of 1 to 999 Hz in the header the parser divides
    by zero. *)
Theorem c50_time_refuted : forall t f, 0 < f < 1000 -> get_time t f = Panic.
Proof.
  intros t f H. unfold get_time. replace (f =? 0) with false by lia.
  rewrite N.div_small by lia. reflexivity.
Qed.

(** A target is logged up to the level of the first filter whose name is a
    prefix of it, else up to the logger's level. *)
Theorem c50_enabled filters max target level :
  (exists pre f post n, filters = pre ++ (f, n) :: post /\ (exists sfx, target = f ++ sfx)
     /\ (forall g m, In (g, m) pre -> forall sfx, target <> g ++ sfx)
     /\ enabled filters max target level = (level <=? n))
  \/ ((forall g m, In (g, m) filters -> forall sfx, target <> g ++ sfx)
      /\ enabled filters max target level = (level <=? max)).
Proof.
  assert (P : forall p s, is_prefix p s = true <-> exists sfx, s = p ++ sfx).
  { induction p as [|x p IH]; intros s; cbn [is_prefix app].
    - split; eauto.
    - destruct s as [|y s]; [split; [discriminate|intros (q & [=])]|].
      rewrite andb_true_iff, N.eqb_eq, IH. split.
      + intros (-> & q & ->). eauto.
      + intros (q & [= -> ->]). eauto. }
  unfold enabled. induction filters as [|[f n] fs IH]; cbn [find fst].
  - right. split; [intros g m []|reflexivity].
  - destruct (is_prefix f target) eqn:E.
    + left. exists [], f, fs, n. cbn [app snd]. split; [reflexivity|]. split; [now apply P|]. split; [intros g m []|reflexivity].
    + assert (Nf : forall sfx, target <> f ++ sfx).
      { intros q Hq. assert (is_prefix f target = true) by (apply P; eauto). congruence. }
      destruct IH as [(pre & f' & post & n' & -> & H2 & H3 & H4)|[H1 H2]].
      * left. exists ((f, n) :: pre), f', post, n'. split; [reflexivity|]. split; [auto|]. split; [|auto].
        intros g m [[= <- <-]|Hin]; auto. eapply H3; eauto.
      * right. split; [|auto]. intros g m [[= <- <-]|Hin]; auto. eapply H1; eauto.
Qed.

Example c50_case :
  let l := Log (Info SIGNATURE VERSION 80 80 0 1000 false 0 1) (fun _ => 0) 1000 true in
  let ss := [repeat 65 100; repeat 66 50; repeat 67 200; [10]] in
  log_record ss = Some [repeat 65 100; repeat 66 50; repeat 67 200; [10]] /\
  option_map (fun st => (fst st, option_map (fun l' => option_map text (write_log true l')) (snd st)))
    (write_chunks false 1 9 ([], Some l) [repeat 65 100; repeat 66 50; repeat 67 200; [10]])
  = Some (concat ss, Some (Some (concat ss))).
Proof. cbv zeta. split; vm_compute; reflexivity. Qed.

Example c50_enabled_case : enabled [([1; 2], 2); ([1], 4)] 3 [1; 2; 9] 3 = false /\ enabled [([1; 2], 2); ([1], 4)] 3 [1; 9] 4 = true.
Proof. vm_compute. auto. Qed.

Print Assumptions c50_writer.
Print Assumptions c50_writer_single.
Print Assumptions c50_port_only.
Print Assumptions c50_record.
Print Assumptions c50_parse.
Print Assumptions c50_metadata.
Print Assumptions c50_time.
Print Assumptions c50_time_refuted.
Print Assumptions c50_enabled.
