(** Registers, resumption and watchpoints on x86-64: what a person who debugs relies on. *)
From Verif Require Import Base.Prelude Base.Bytes Debugger.ArchModel Debugger.ArchSpec Debugger.ArchProofs.
From Coq Require Import Lia ZifyBool ZifyNat ZifyN.
Local Open Scope N_scope.
Ltac Zify.zify_post_hook ::= Z.div_mod_to_equations.

(** ** Registers *)

(** C75: of the registers that are sent, the client shows the general registers, the instruction pointer and the flags as they are. *)
Theorem c75_read_partial : forall c i, ctx_ok c -> (i < 18)%nat -> shown (packet_read c) i = nth i (described c) 0.
Proof.
  intros c i OK I. rewrite packet_sent, shown_flat by (try assumption; try (apply sent_ok; assumption); cbn [sent length]; lia).
  do 18 (destruct i as [|i]; [reflexivity|]). lia.
Qed.
(** Not so: the others.  The description gives a segment register 64 bits, and 32 are sent: the client shows other registers in their place. *)
Theorem c75_read_refuted : forall c, ctx_ok c ->
  map (shown (packet_read c)) (seq 18 10)
  = [cs c + two32 * ss c; ds c + two32 * es c; fs c + two32 * gs c; cr0 c; cr2 c; cr3 c; cr4 c; 0; 0; 0].
Proof.
  intros c OK. cbn [seq map]. rewrite packet_sent by exact OK. rewrite !shown_flat by (try (apply sent_ok; assumption); cbn [sent length]; lia). reflexivity.
Qed.
(** C75: a packet laid out as described sets every register it holds to its value (a segment register to 32 bits of it), and no other; a shorter one is refused. *)
Theorem c75_write : forall c bytes, bytes_ok bytes ->
  ((length bytes < 8 * 28)%nat -> packet_write c bytes = Err tt)
  /\ ((8 * 28 <= length bytes)%nat -> exists c', packet_write c bytes = Ok c'
        /\ (forall i, (i < 28)%nat -> nth i (described c') 0 = if (18 <=? i)%nat && (i <? 24)%nat then shown bytes i mod two32 else shown bytes i)
        /\ x_data c' = x_data c /\ x_rest c' = x_rest c).
Proof.
  intros c bytes B. unfold packet_write, gdb_deserialize. rewrite read_values_spec. cbn [Nat.eqb orb Nat.mul Nat.sub Nat.add].
  split; intros L.
  - destruct (128 <=? length bytes)%nat eqn:E1; [|reflexivity]. cbn [bind].
    unfold read_value at 1. destruct (length bytes <? 128 + 8)%nat eqn:E2; [reflexivity|]. cbn [bind].
    unfold read_value at 1. destruct (length bytes <? 128 + 8 + 8)%nat eqn:E3; [reflexivity|]. cbn [bind].
    rewrite read_values_spec. cbn [Nat.eqb orb]. destruct (128 + 8 + 8 + 8 * (6 - 1) + 4 <=? length bytes)%nat eqn:E4; [|reflexivity]. cbn [bind].
    rewrite read_values_spec. cbn [Nat.eqb orb]. destruct (128 + 8 + 8 + 8 * 6 + 8 * (4 - 1) + 8 <=? length bytes)%nat eqn:E5; [lia | reflexivity].
  - destruct (128 <=? length bytes)%nat eqn:E1; [|lia]. cbn [bind].
    unfold read_value at 1. destruct (length bytes <? 128 + 8)%nat eqn:E2; [lia|]. cbn [bind].
    unfold read_value at 1. destruct (length bytes <? 128 + 8 + 8)%nat eqn:E3; [lia|]. cbn [bind].
    rewrite read_values_spec. cbn [Nat.eqb orb]. destruct (128 + 8 + 8 + 8 * (6 - 1) + 4 <=? length bytes)%nat eqn:E4; [|lia]. cbn [bind].
    rewrite read_values_spec. cbn [Nat.eqb orb]. destruct (128 + 8 + 8 + 8 * 6 + 8 * (4 - 1) + 8 <=? length bytes)%nat eqn:E5; [|lia]. cbn [bind].
    eexists. split; [reflexivity|]. split; [|split; reflexivity].
    intros i I. unfold shown. do 28 (destruct i as [|i]; [first [reflexivity | exact (le_at_4 bytes _ B)]|]). lia.
Qed.
(** Not so: that setting a register leaves the others.  A client sends all of them, as it received them: whatever it changes, segment and control
    registers are replaced; CR0 becomes CR4 and CR2 to CR4 become zero. *)
Theorem c75_write_back_refuted : forall c, ctx_ok c -> exists c', packet_write c (packet_read c) = Ok c'
  /\ described c' = firstn 18 (described c) ++ [cs c; ds c; fs c; cr0 c mod two32; cr2 c mod two32; cr3 c mod two32; cr4 c; 0; 0; 0].
Proof.
  intros c OK.
  assert (B : bytes_ok (packet_read c)).
  { rewrite packet_sent by exact OK. apply bytes_ok_app. split; [|apply bytes_ok_repeat0]. apply Forall_forall. intros x X. apply in_flat_map in X.
    destruct X as [v [_ X]]. pose proof (le_bytes_ok 8 v) as F. unfold bytes_ok in F. rewrite Forall_forall in F. apply F, X. }
  assert (LE : length (packet_read c) = 318%nat) by (rewrite packet_sent, app_length, flat8_length, repeat_length by exact OK; reflexivity).
  destruct (c75_write c (packet_read c) B) as [_ W]. destruct W as (c' & W & D & _); [lia|]. exists c'. split; [exact W|].
  pose proof (fun i => c75_read_partial c i OK) as P. pose proof (c75_read_refuted c OK) as Q. cbn [seq map] in Q.
  
  assert (Q0 : shown (packet_read c) 18 = cs c + two32 * ss c) by (remember (shown (packet_read c)) as g; congruence).
  assert (Q1 : shown (packet_read c) 19 = ds c + two32 * es c) by (remember (shown (packet_read c)) as g; congruence).
  assert (Q2 : shown (packet_read c) 20 = fs c + two32 * gs c) by (remember (shown (packet_read c)) as g; congruence).
  assert (Q3 : shown (packet_read c) 21 = cr0 c) by (remember (shown (packet_read c)) as g; congruence).
  assert (Q4 : shown (packet_read c) 22 = cr2 c) by (remember (shown (packet_read c)) as g; congruence).
  assert (Q5 : shown (packet_read c) 23 = cr3 c) by (remember (shown (packet_read c)) as g; congruence).
  assert (Q6 : shown (packet_read c) 24 = cr4 c) by (remember (shown (packet_read c)) as g; congruence).
  assert (Q7 : shown (packet_read c) 25 = 0) by (remember (shown (packet_read c)) as g; congruence).
  assert (Q8 : shown (packet_read c) 26 = 0) by (remember (shown (packet_read c)) as g; congruence).
  assert (Q9 : shown (packet_read c) 27 = 0) by (remember (shown (packet_read c)) as g; congruence).
  clear Q. destruct OK as (_ & S1 & S2 & S3 & S4 & S5 & S6). unfold described at 1.
  assert (PL : forall i, (i < 18)%nat -> nth i (described c') 0 = nth i (described c) 0).
  { intros i I. rewrite (D i) by lia. destruct ((18 <=? i)%nat && (i <? 24)%nat) eqn:E; [lia|]. apply P. exact I. }
  assert (SG : forall a b, a < two32 -> (a + two32 * b) mod two32 = a) by (intros a b A; unfold two32 in *; lia).
  pose proof (D 18%nat (proj1 (Nat.ltb_lt 18 28) eq_refl)) as D0. pose proof (D 19%nat (proj1 (Nat.ltb_lt 19 28) eq_refl)) as D1. pose proof (D 20%nat (proj1 (Nat.ltb_lt 20 28) eq_refl)) as D2. pose proof (D 21%nat (proj1 (Nat.ltb_lt 21 28) eq_refl)) as D3.
  pose proof (D 22%nat (proj1 (Nat.ltb_lt 22 28) eq_refl)) as D4. pose proof (D 23%nat (proj1 (Nat.ltb_lt 23 28) eq_refl)) as D5. pose proof (D 24%nat (proj1 (Nat.ltb_lt 24 28) eq_refl)) as D6. pose proof (D 25%nat (proj1 (Nat.ltb_lt 25 28) eq_refl)) as D7.
  pose proof (D 26%nat (proj1 (Nat.ltb_lt 26 28) eq_refl)) as D8. pose proof (D 27%nat (proj1 (Nat.ltb_lt 27 28) eq_refl)) as D9. cbn [Nat.leb Nat.ltb andb described nth] in D0, D1, D2, D3, D4, D5, D6, D7, D8, D9.
  rewrite Q0, SG in D0 by assumption. rewrite Q1, SG in D1 by assumption. rewrite Q2, SG in D2 by assumption. rewrite Q3 in D3. rewrite Q4 in D4. rewrite Q5 in D5.
  rewrite Q6 in D6. rewrite Q7 in D7. rewrite Q8 in D8. rewrite Q9 in D9. rewrite D0, D1, D2, D3, D4, D5, D6, D7, D8, D9. cbn [described firstn app].
  pose proof (PL 0%nat (proj1 (Nat.ltb_lt 0 18) eq_refl)) as R0. cbn [described nth] in R0.
  pose proof (PL 1%nat (proj1 (Nat.ltb_lt 1 18) eq_refl)) as R1. cbn [described nth] in R1.
  pose proof (PL 2%nat (proj1 (Nat.ltb_lt 2 18) eq_refl)) as R2. cbn [described nth] in R2.
  pose proof (PL 3%nat (proj1 (Nat.ltb_lt 3 18) eq_refl)) as R3. cbn [described nth] in R3.
  pose proof (PL 4%nat (proj1 (Nat.ltb_lt 4 18) eq_refl)) as R4. cbn [described nth] in R4.
  pose proof (PL 5%nat (proj1 (Nat.ltb_lt 5 18) eq_refl)) as R5. cbn [described nth] in R5.
  pose proof (PL 6%nat (proj1 (Nat.ltb_lt 6 18) eq_refl)) as R6. cbn [described nth] in R6.
  pose proof (PL 7%nat (proj1 (Nat.ltb_lt 7 18) eq_refl)) as R7. cbn [described nth] in R7.
  pose proof (PL 8%nat (proj1 (Nat.ltb_lt 8 18) eq_refl)) as R8. cbn [described nth] in R8.
  pose proof (PL 9%nat (proj1 (Nat.ltb_lt 9 18) eq_refl)) as R9. cbn [described nth] in R9.
  pose proof (PL 10%nat (proj1 (Nat.ltb_lt 10 18) eq_refl)) as R10. cbn [described nth] in R10.
  pose proof (PL 11%nat (proj1 (Nat.ltb_lt 11 18) eq_refl)) as R11. cbn [described nth] in R11.
  pose proof (PL 12%nat (proj1 (Nat.ltb_lt 12 18) eq_refl)) as R12. cbn [described nth] in R12.
  pose proof (PL 13%nat (proj1 (Nat.ltb_lt 13 18) eq_refl)) as R13. cbn [described nth] in R13.
  pose proof (PL 14%nat (proj1 (Nat.ltb_lt 14 18) eq_refl)) as R14. cbn [described nth] in R14.
  pose proof (PL 15%nat (proj1 (Nat.ltb_lt 15 18) eq_refl)) as R15. cbn [described nth] in R15.
  pose proof (PL 16%nat (proj1 (Nat.ltb_lt 16 18) eq_refl)) as R16. cbn [described nth] in R16.
  pose proof (PL 17%nat (proj1 (Nat.ltb_lt 17 18) eq_refl)) as R17. cbn [described nth] in R17.
  rewrite R0, R1, R2, R3, R4, R5, R6, R7, R8, R9, R10, R11, R12, R13, R14, R15, R16, R17. reflexivity.
Qed.
(** Without the packets nothing is lost: registers taken from a context and put back are the same. *)
Theorem c75_context : forall c, ctx_ok c -> write_to_context (from_context c) c = c.
Proof.
  intros c (_ & S1 & S2 & S3 & S4 & S5 & S6). unfold write_to_context, from_context. cbn [g_regs g_rip g_eflags g_segments g_control nth].
  rewrite !N.mod_small by assumption. destruct c; reflexivity.
Qed.
(** Register numbers: the first 28 name the register of the description; the next one names a control register that does not exist. *)
Theorem c75_ids : forall id, id < 28 -> from_raw_id id = Some (
  if id <? 16 then (Gpr id, 8) else if id =? 16 then (Rip, 8) else if id =? 17 then (Eflags, 8)
  else if id <? 24 then (Segment (id - 18), 4) else (Control (id - 24), 8)).
Proof.
  intros id I. unfold from_raw_id. destruct (id <=? 15) eqn:E1; destruct (id <? 16) eqn:F1; try lia; [reflexivity|].
  destruct (id =? 16); [reflexivity|]. destruct (id =? 17); [reflexivity|]. destruct (id <=? 23) eqn:E2; destruct (id <? 24) eqn:F2; try lia; [reflexivity|].
  destruct (id <=? 28) eqn:E3; [reflexivity | lia].
Qed.
Theorem c75_ids_refuted : forall c, from_raw_id 28 = Some (Control 4, 8) /\ length (g_control (from_context c)) = 4%nat
  /\ from_raw_id 29 = Some (Fpu 5, 4) /\ from_raw_id 31 = Some (Fpu 7, 4) /\ from_raw_id 44 = Some (St 13, 10).
Proof. intros. repeat split. Qed.

(** ** Resumption *)

(** C75: an exception other than a breakpoint resumes with the context as the user left it; the user sees the program's, without the trap flag
    after a step.  Failures of the protocol before that change nothing. *)
Theorem c75_resume : forall dbg n m c f fails l, n <> 3 ->
  (forall s, In s fails -> s = StubError) ->
  handle_exception dbg n m c (fails ++ Resume f :: l)
  = Some (Ok (f (if n =? 1 then with_flags c (N.clearbit (rflags c) 8) else c))).
Proof.
  intros dbg n m c f fails l N3 F. revert c. induction fails as [|s fails IH]; intros c.
  - cbn [app handle_exception]. unfold process_entry. destruct (n =? 1); [reflexivity|]. destruct (n =? 3) eqn:E; [lia|].
    destruct (n =? 13); [reflexivity|]. destruct (n =? 14); reflexivity.
  - cbn [app handle_exception]. rewrite (F s (or_introl eq_refl)). assert (F' : forall s, In s fails -> s = StubError) by (intros x X; apply F; right; exact X).
    specialize (IH F'). unfold process_entry. destruct (n =? 1) eqn:E1.
    + rewrite IH. f_equal. f_equal. f_equal. unfold with_flags. cbn. f_equal. change (N.ldiff (rflags c) 256) with (N.clearbit (rflags c) 8).
      apply N.bits_inj. intros j. rewrite !N.clearbit_eqb. destruct (N.testbit (rflags c) j); [|reflexivity]. destruct (8 =? j); reflexivity.
    + destruct (n =? 3) eqn:E; [lia|]. destruct (n =? 13); [apply IH|]. destruct (n =? 14); apply IH.
Qed.
(** C75: at a breakpoint the user sees the address of the instruction.  Execution goes on at the address the user left, or behind the breakpoint
    instruction if one is still there. *)
Theorem c75_resume_breakpoint : forall dbg m c f l, 0 < rip c ->
  let c' := f (with_rip c (rip c - 1)) in
  (m (rip c') <> 0xCC -> handle_exception dbg 3 m c (Resume f :: l) = Some (Ok c'))
  /\ (m (rip c') = 0xCC -> rip c' + 1 < two64 -> handle_exception dbg 3 m c (Resume f :: l) = Some (Ok (with_rip c' (rip c' + 1)))).
Proof.
  intros dbg m c f l R c'. cbn [handle_exception]. unfold process_entry. cbn [N.eqb Pos.eqb]. unfold usub. destruct (1 <=? rip c) eqn:E; [|lia]. cbn [bind].
  unfold process_exit. cbn [i_type i_ctx]. fold c'. unfold INT_3. split.
  - intros H. rewrite (proj2 (N.eqb_neq _ _) H). reflexivity.
  - intros H L. rewrite (proj2 (N.eqb_eq _ _) H). unfold uadd. destruct (rip c' + 1 <? two64) eqn:U; [|lia]. reflexivity.
Qed.
(** So a breakpoint instruction of the program is stepped over, and one that the debugger has removed gives way to the instruction it replaced. *)
Theorem c75_hardcoded : forall dbg m c l, 0 < rip c -> rip c < two64 ->
  (m (rip c - 1) = 0xCC -> handle_exception dbg 3 m c (Resume (fun x => x) :: l) = Some (Ok c))
  /\ (m (rip c - 1) <> 0xCC -> handle_exception dbg 3 m c (Resume (fun x => x) :: l) = Some (Ok (with_rip c (rip c - 1)))).
Proof.
  intros dbg m c l R L. destruct (c75_resume_breakpoint dbg m c (fun x => x) l R) as [A B]. cbn [with_rip rip] in A, B. split; intros H.
  - rewrite (B H) by lia. f_equal. f_equal. unfold with_rip. cbn. replace (rip c - 1 + 1) with (rip c) by lia. destruct c; reflexivity.
  - exact (A H).
Qed.
(** Not so: after a failure of the protocol at a breakpoint.  The address is stepped back again, and execution goes on one byte too early. *)
Theorem c75_restart_refuted : forall dbg m c l, 1 < rip c -> m (rip c - 2) <> 0xCC ->
  handle_exception dbg 3 m c (StubError :: Resume (fun x => x) :: l) = Some (Ok (with_rip c (rip c - 2))).
Proof.
  intros dbg m c l R H. change (handle_exception dbg 3 m c (StubError :: Resume (fun x => x) :: l)) with
    (match process_entry dbg 3 c with Ok (i, c') => handle_exception dbg 3 m c' (Resume (fun x => x) :: l) | Err x => Some (Err x) | Panic => Some Panic end).
  unfold process_entry. cbn [N.eqb Pos.eqb]. unfold usub. destruct (1 <=? rip c) eqn:E; [|lia]. cbn [bind].
  destruct (c75_resume_breakpoint dbg m (with_rip c (rip c - 1)) (fun x => x) l ltac:(cbn [with_rip rip]; lia)) as [A _]. cbn [with_rip rip] in A.
  replace (rip c - 1 - 1) with (rip c - 2) in A by lia. specialize (A H). exact A.
Qed.
(** A step sets the trap flag and nothing else. *)
Theorem c75_step : forall i j, N.testbit (rflags (i_ctx (set_single_step i))) j = (j =? 8) || N.testbit (rflags (i_ctx i)) j.
Proof. intros i j. cbn [set_single_step i_ctx with_flags rflags]. change 0x100 with (N.shiftl 1 8). change (N.lor (rflags (i_ctx i)) (N.shiftl 1 8)) with (N.setbit (rflags (i_ctx i)) 8). rewrite N.setbit_eqb, N.eqb_sym. reflexivity. Qed.
Theorem c75_step_others : forall i, with_flags (i_ctx (set_single_step i)) (rflags (i_ctx i)) = i_ctx i /\ i_type (set_single_step i) = i_type i.
Proof. intros [t p c]. destruct c. split; reflexivity. Qed.

(** ** Watchpoints *)

(** C76: a start clears the enables of all four slots and nothing else. *)
Theorem c76_start : forall d j, watched (initialize d) = [None; None; None; None] /\ N.testbit (d_7 (initialize d)) j = (8 <=? j) && N.testbit (d_7 d) j.
Proof.
  intros d j. assert (B : forall j, N.testbit (d_7 (initialize d)) j = (8 <=? j) && N.testbit (d_7 d) j).
  { clear j. intros j. cbn [initialize d_7]. unfold clear_all. rewrite N.ldiff_spec. destruct (8 <=? j) eqn:E.
    - rewrite (N.bits_above_log2 255) by (change (N.log2 255) with 7; lia). cbn. apply Bool.andb_true_r.
    - assert (J : j = 0 \/ j = 1 \/ j = 2 \/ j = 3 \/ j = 4 \/ j = 5 \/ j = 6 \/ j = 7) by lia.
      destruct J as [-> | [-> | [-> | [-> | [-> | [-> | [-> | ->]]]]]]]; apply Bool.andb_false_r. }
  split; [|apply B]. unfold watched, slot. rewrite !B. reflexivity.
Qed.
(** C76: after any history of watchpoints set and removed the processor watches what a table of four slots holds, the answers are those of the table,
    and the other bits of DR7 are as they were. *)
Theorem c76_history : forall d ops, length (d_addr d) = 4%nat ->
  watched (snd (run_w d ops)) = snd (table_w (watched d) ops) /\ fst (run_w d ops) = fst (table_w (watched d) ops)
  /\ forall j, foreign j -> N.testbit (d_7 (snd (run_w d ops))) j = N.testbit (d_7 d) j.
Proof.
  intros d ops. revert d. induction ops as [|o ops IH]; intros d L; [repeat split|]. cbn [run_w table_w].
  destruct (step_sim d o L) as (S1 & S2 & S3). rewrite S1. destruct (match o with AddW a len k => add_watchpoint d a len k | RemoveW a len k => remove_watchpoint d a len k end) as [b d'].
  cbn [fst snd] in *. destruct (IH d' S2) as (I1 & I2 & I3). destruct (run_w d' ops) as [bs d'']. destruct (table_w (watched d') ops) as [bs' t'']. cbn [fst snd] in *.
  split; [exact I1|]. split; [rewrite I2; reflexivity|]. intros j F. rewrite (I3 j F). apply S3. exact F.
Qed.
(** C76: a slot for an aligned range of one, two or four bytes watches that range; for one and two exactly that. *)
Theorem c76_covers_partial : forall a n k x, n = 1 \/ n = 2 \/ n = 4 -> a mod n = 0 ->
  (a <= x -> x < a + n -> covers (a, len_field n, rw_field k) x)
  /\ (n < 4 -> covers (a, len_field n, rw_field k) x -> a <= x /\ x < a + n).
Proof. intros a n k x [-> | [-> | ->]] AL; unfold covers, len_field, sdm_len; cbn [N.eqb Pos.eqb]; split; intros; lia. Qed.
(** Not so: eight bytes.  The length fields for four and eight are exchanged, so the second half is not watched … *)
Theorem c76_eight_refuted : forall a k x, a mod 8 = 0 -> a + 4 <= x -> ~ covers (a, len_field 8, rw_field k) x.
Proof. intros a k x AL X. unfold covers, len_field, sdm_len. cbn [N.eqb Pos.eqb]. lia. Qed.
(** … and a watch on four bytes stops the program for the four next to them. *)
Theorem c76_four_refuted : forall a k, a mod 8 = 0 -> covers (a, len_field 4, rw_field k) (a + 4).
Proof. intros a k AL. unfold covers, len_field, sdm_len. cbn [N.eqb Pos.eqb]. lia. Qed.
(** Not so: a range that is not aligned is accepted and not watched. *)
Theorem c76_unaligned_refuted : forall a k, a mod 2 = 1 -> ~ covers (a, len_field 2, rw_field k) (a + 1).
Proof. intros a k AL. unfold covers, len_field, sdm_len. cbn [N.eqb Pos.eqb]. lia. Qed.
(** Not so: a second watch on an address is accepted and dropped: the kind and the length are those of the first. *)
Theorem c76_second_refuted : forall d a n k n' k', length (d_addr d) = 4%nat -> watched d = [None; None; None; None] ->
  fst (run_w d [AddW a n k; AddW a n' k']) = [true; true]
  /\ watched (snd (run_w d [AddW a n k; AddW a n' k'])) = [Some (a, len_field n, rw_field k); None; None; None].
Proof.
  intros d a n k n' k' L E. destruct (c76_history d [AddW a n k; AddW a n' k'] L) as (H1 & H2 & _). rewrite H1, H2, E.
  cbn [table_w step_w existsb has orb into_free]. rewrite N.eqb_refl. cbn [orb fst snd]. split; reflexivity.
Qed.
(** A watch for reads is a watch for reads and writes. *)
Theorem c76_read_refuted : rw_field WRead = rw_field WReadWrite.
Proof. reflexivity. Qed.

(** ** Cases *)

Definition demo_ctx : ctx := Ctx 1 2 3 4 5 6 7 8 9 10 11 12 13 14 15 16 0x1001 0x246 0x38 0x30 0x30 0x30 0x30 0x30 0x80010033 0 0x1000000 0x668 0 0.
Example demo_ctx_ok : ctx_ok demo_ctx.
Proof. unfold ctx_ok, demo_ctx. split; [repeat (constructor; [reflexivity|]); constructor | repeat split; reflexivity]. Qed.
Example demo_packet : length (packet_read demo_ctx) = 318%nat /\ shown (packet_read demo_ctx) 18 = 0x3000000038 /\ shown (packet_read demo_ctx) 16 = 0x1001.
Proof. vm_compute. repeat split. Qed.
Example demo_breakpoint : exists m, m (rip demo_ctx - 1) = 0xCC /\ 0 < rip demo_ctx /\ m (rip demo_ctx - 2) <> 0xCC.
Proof. exists (fun x => if x =? 0x1000 then 0xCC else 0x90). vm_compute. repeat split; discriminate. Qed.
Example demo_watch : let d := initialize (Dregs [7; 7; 7; 7] 0x4FF) in
  let ops := [AddW 0x1000 1 WWrite; AddW 0x2000 2 WRead; AddW 0x3000 4 WWrite; RemoveW 0x2000 1 WWrite; AddW 0x1000 8 WRead; AddW 0x4000 8 WWrite; AddW 0x5000 1 WWrite; AddW 0x6000 1 WWrite; RemoveW 0x9000 1 WRead] in
  fst (run_w d ops) = [true; true; true; true; true; true; true; false; false]
  /\ watched (snd (run_w d ops)) = [Some (0x1000, 0, 1); Some (0x4000, 3, 1); Some (0x3000, 2, 1); Some (0x5000, 0, 1)] /\ d_7 (snd (run_w d ops)) = 0x19D10455.
Proof. vm_compute. repeat split. Qed.

Print Assumptions c75_read_partial.
Print Assumptions c75_read_refuted.
Print Assumptions c75_write.
Print Assumptions c75_write_back_refuted.
Print Assumptions c75_context.
Print Assumptions c75_ids.
Print Assumptions c75_ids_refuted.
Print Assumptions c75_resume.
Print Assumptions c75_resume_breakpoint.
Print Assumptions c75_hardcoded.
Print Assumptions c75_restart_refuted.
Print Assumptions c75_step.
Print Assumptions c75_step_others.
Print Assumptions c76_start.
Print Assumptions c76_history.
Print Assumptions c76_covers_partial.
Print Assumptions c76_eight_refuted.
Print Assumptions c76_four_refuted.
Print Assumptions c76_unaligned_refuted.
Print Assumptions c76_second_refuted.
Print Assumptions c76_read_refuted.
