(** Lemmas about registers and watchpoints. *)
From Verif Require Import Base.Prelude Base.Bytes Debugger.ArchModel Debugger.ArchSpec.
From Coq Require Import Lia ZifyBool ZifyNat ZifyN.
Local Open Scope N_scope.
Ltac Zify.zify_post_hook ::= Z.div_mod_to_equations.

(** ** Bytes *)

Lemma flat8_length : forall l, length (flat_map (le_bytes 8) l) = (8 * length l)%nat.
Proof. induction l as [|v l IH]; [reflexivity|]. cbn [flat_map]. rewrite app_length, le_bytes_length, IH. cbn [length]. lia. Qed.
Lemma le_at_skip : forall a b o w, le_at (a ++ b) (length a + o) w = le_at b o w.
Proof. intros. unfold le_at. rewrite skipn_app, skipn_all2 by lia. cbn [app]. f_equal. f_equal. f_equal. lia. Qed.
Lemma shown_flat : forall l rest i, Forall (fun v => v < two64) l -> (i < length l)%nat -> shown (flat_map (le_bytes 8) l ++ rest) i = nth i l 0.
Proof.
  intros l rest i F. revert i. induction F as [|v l V F IH]; intros i I; cbn [length] in I; [lia|]. cbn [flat_map]. rewrite <- app_assoc. unfold shown in *.
  destruct i as [|i].
  - cbn [nth]. exact (le_at_app' [] v 8 (flat_map (le_bytes 8) l ++ rest) (8 * 0) eq_refl V).
  - cbn [nth]. rewrite <- (IH i) by lia. replace (8 * S i)%nat with (length (le_bytes 8 v) + 8 * i)%nat by (rewrite le_bytes_length; lia). apply le_at_skip.
Qed.
Lemma le_bytes_pair : forall a b, a < two32 -> le_bytes 4 a ++ le_bytes 4 b = le_bytes 8 (a + two32 * b).
Proof.
  intros a b A. unfold two32 in *. cbn [le_bytes app]. change (2 ^ 32) with 4294967296 in *.
  repeat (f_equal; [lia|]). f_equal. lia.
Qed.

(** ** Registers *)

(** What is sent, in eights. *)
Definition sent (c : ctx) : list N :=
  [rax c; rbx c; rcx c; rdx c; rsi c; rdi c; rbp c; rsp c; r8 c; r9 c; r10 c; r11 c; r12 c; r13 c; r14 c; r15 c; rip c; rflags c;
   cs c + two32 * ss c; ds c + two32 * es c; fs c + two32 * gs c; cr0 c; cr2 c; cr3 c; cr4 c; 0; 0; 0].
Lemma packet_sent : forall c, ctx_ok c -> packet_read c = flat_map (le_bytes 8) (sent c) ++ repeat 0 94.
Proof.
  intros c (F & S1 & S2 & S3 & S4 & S5 & S6). unfold packet_read, gdb_serialize, from_context. cbn [g_regs g_rip g_eflags g_segments g_control g_fpu g_st].
  rewrite !N.mod_small by assumption. unfold sent. cbn [flat_map]. rewrite !app_nil_r. rewrite <- !app_assoc.
  do 18 (f_equal). rewrite <- !le_bytes_pair by assumption. rewrite <- !app_assoc. do 10 f_equal.
Qed.
Lemma sent_ok : forall c, ctx_ok c -> Forall (fun v => v < two64) (sent c).
Proof.
  intros c (F & S1 & S2 & S3 & S4 & S5 & S6). unfold described in F. rewrite Forall_forall in F. unfold sent. apply Forall_forall. intros v V.
  cbn [In] in V. repeat (destruct V as [<-|V]; [first [apply F; cbn [In]; tauto | unfold two64, two32 in *; lia]|]). destruct V.
Qed.

Lemma read_values_spec : forall bytes w k off,
  read_values bytes w k off =
    if (k =? 0)%nat || (off + 8 * (k - 1) + w <=? length bytes)%nat
    then Ok (map (fun i => le_at bytes (off + 8 * i) w) (seq 0 k), (off + 8 * k)%nat) else Err tt.
Proof.
  intros bytes w. induction k as [|k IH]; intros off.
  - cbn. do 2 f_equal. lia.
  - cbn [read_values]. unfold read_value. destruct (length bytes <? off + w)%nat eqn:L.
    + cbn [bind]. destruct (S k =? 0)%nat eqn:K; [lia|]. destruct (off + 8 * (S k - 1) + w <=? length bytes)%nat eqn:M; [lia | reflexivity].
    + cbn [bind]. rewrite IH. destruct (S k =? 0)%nat eqn:K; [lia|]. cbn [orb].
      replace ((k =? 0)%nat || (off + 8 + 8 * (k - 1) + w <=? length bytes)%nat) with (off + 8 * (S k - 1) + w <=? length bytes)%nat by (destruct k; cbn [Nat.eqb orb]; lia).
      destruct (off + 8 * (S k - 1) + w <=? length bytes)%nat; [|reflexivity]. cbn [bind seq map].
      do 2 f_equal; [|lia]. f_equal; [unfold le_at; do 3 f_equal; lia|]. rewrite <- seq_shift, map_map. apply map_ext. intros i. f_equal. lia.
Qed.
Lemma le_val_firstn : forall l w k, bytes_ok l -> (w <= k)%nat -> le_val (firstn w l) = le_val (firstn k l) mod 256 ^ N.of_nat w.
Proof.
  intros l w k B. revert w k. induction B as [|x l X B IH]; intros w k WK.
  - rewrite !firstn_nil. cbn [le_val]. symmetry. apply N.mod_0_l. apply N.pow_nonzero. lia.
  - destruct w as [|w]; [cbn [firstn le_val]; rewrite N.mod_1_r; reflexivity|]. destruct k as [|k]; [lia|]. cbn [firstn le_val]. rewrite (IH w k) by lia.
    rewrite Nat2N.inj_succ, N.pow_succ_r'. rewrite N.mod_mul_r by (try apply N.pow_nonzero; lia).
    set (v := le_val (firstn k l)). replace ((x + 256 * v) mod 256) with x by lia. replace ((x + 256 * v) / 256) with v by lia. reflexivity.
Qed.
Lemma le_at_4 : forall l o, bytes_ok l -> le_at l o 4 = le_at l o 8 mod two32.
Proof.
  intros l o B. unfold le_at. rewrite (le_val_firstn (skipn o l) 4 8) by (try lia; apply Forall_forall; intros x X; rewrite <- (firstn_skipn o l) in B; apply Forall_app in B; destruct B as [_ B]; rewrite Forall_forall in B; apply B, X).
  reflexivity.
Qed.

(** ** Bits of DR7 *)

Lemma field_bits : forall d s, field d s = N.b2n (N.testbit d s) + 2 * N.b2n (N.testbit d (s + 1)).
Proof.
  intros d s. unfold field. rewrite !N.testbit_spec'. rewrite N.pow_add_r, N.pow_1_r, <- N.div_div by (try apply N.pow_nonzero; lia). set (q := d / 2 ^ s). lia.
Qed.
Definition putf (d s v : N) : N := N.lor (N.ldiff d (N.shiftl 3 s)) (N.shiftl v s).
Lemma putf_bit : forall d s v j, v < 4 -> N.testbit (putf d s v) j = if (s <=? j) && (j <? s + 2) then N.testbit v (j - s) else N.testbit d j.
Proof.
  intros d s v j V. unfold putf. rewrite N.lor_spec, N.ldiff_spec. destruct (s <=? j) eqn:E.
  - rewrite !N.shiftl_spec_high' by lia. destruct (j <? s + 2) eqn:F; cbn [andb].
    + assert (J : j - s = 0 \/ j - s = 1) by lia. destruct J as [-> | ->]; cbn; now rewrite Bool.andb_false_r.
    + assert (T3 : N.testbit 3 (j - s) = false) by (apply N.bits_above_log2; change (N.log2 3) with 1; lia).
      assert (TV : N.testbit v (j - s) = false).
      { destruct (N.eq_dec v 0) as [->|NZ]; [apply N.bits_0|]. apply N.bits_above_log2. apply N.log2_lt_pow2; [lia|].
        apply (N.lt_le_trans _ 4); [exact V|]. change 4 with (2 ^ 2). apply N.pow_le_mono_r; lia. }
      rewrite T3, TV. cbn [negb]. now rewrite Bool.andb_true_r, Bool.orb_false_r.
  - rewrite !N.shiftl_spec_low by lia. cbn [andb negb]. now rewrite Bool.andb_true_r, Bool.orb_false_r.
Qed.
Lemma enabled_bit : forall d i, get_enabled d i = N.testbit d (2 * N.of_nat i).
Proof.
  intros d i. unfold get_enabled. change 1 with (N.ones 1). rewrite N.land_ones, N.shiftr_div_pow2, N.testbit_eqb. change (2 ^ 1) with 2.
  replace (N.of_nat i * 2) with (2 * N.of_nat i) by lia. set (q := d / 2 ^ (2 * N.of_nat i)). lia.
Qed.
Lemma set_enabled_bit : forall d i b j, N.testbit (set_enabled d i b) j = if j =? 2 * N.of_nat i then b else N.testbit d j.
Proof.
  intros d i b j. unfold set_enabled. replace (N.of_nat i * 2) with (2 * N.of_nat i) by lia. destruct b.
  - change (N.lor d (N.shiftl 1 (2 * N.of_nat i))) with (N.setbit d (2 * N.of_nat i)). rewrite N.setbit_eqb, (N.eqb_sym j). destruct (2 * N.of_nat i =? j); reflexivity.
  - change (N.ldiff d (N.shiftl 1 (2 * N.of_nat i))) with (N.clearbit d (2 * N.of_nat i)). rewrite N.clearbit_eqb, (N.eqb_sym j). destruct (2 * N.of_nat i =? j); cbn [negb]; [apply Bool.andb_false_r | apply Bool.andb_true_r].
Qed.
Lemma set_rw_putf : forall d i k, set_rw d i k = putf d (16 + 4 * N.of_nat i) (rw_field k).
Proof. intros d i k. unfold set_rw, putf, rw_field. replace (N.of_nat i * 4 + 16) with (16 + 4 * N.of_nat i) by lia. destruct k; reflexivity. Qed.
Lemma set_len_putf : forall d i n, set_len d i n = putf d (18 + 4 * N.of_nat i) (len_field n).
Proof. intros d i n. unfold set_len, putf, len_field. replace (N.of_nat i * 4 + 18) with (18 + 4 * N.of_nat i) by lia. reflexivity. Qed.
Lemma len_field_small : forall n, len_field n < 4.
Proof. intros n. unfold len_field. destruct (n =? 1); [lia|]. destruct (n =? 2); [lia|]. destruct (n =? 4); lia. Qed.
Lemma rw_field_small : forall k, rw_field k < 4.
Proof. intros []; cbn; lia. Qed.
Lemma field_whole : forall v, v < 4 -> N.b2n (N.testbit v 0) + 2 * N.b2n (N.testbit v 1) = v.
Proof. intros v V. assert (X : v = 0 \/ v = 1 \/ v = 2 \/ v = 3) by lia. destruct X as [-> | [-> | [-> | ->]]]; reflexivity. Qed.

Lemma nth_set_addr : forall l i a j, (i < length l)%nat -> nth j (set_addr l i a) 0 = if (i =? j)%nat then a else nth j l 0.
Proof.
  induction l as [|x l IH]; intros i a j I; cbn [length] in I; [lia|]. destruct i as [|i], j as [|j]; cbn [set_addr nth Nat.eqb]; try reflexivity. apply IH. lia.
Qed.
Lemma set_addr_length : forall l i a, length (set_addr l i a) = length l.
Proof. induction l as [|x l IH]; intros [|i] a; cbn; [reflexivity | reflexivity | reflexivity | now rewrite IH]. Qed.

Definition armed (d : dregs) (i : nat) (a n : N) (k : watch) : dregs :=
  Dregs (set_addr (d_addr d) i a) (set_enabled (set_rw (set_len (d_7 d) i n) i k) i true).
Lemma armed_bit : forall d i a n k j, N.testbit (d_7 (armed d i a n k)) j =
  if j =? 2 * N.of_nat i then true
  else if (16 + 4 * N.of_nat i <=? j) && (j <? 18 + 4 * N.of_nat i) then N.testbit (rw_field k) (j - (16 + 4 * N.of_nat i))
  else if (18 + 4 * N.of_nat i <=? j) && (j <? 20 + 4 * N.of_nat i) then N.testbit (len_field n) (j - (18 + 4 * N.of_nat i))
  else N.testbit (d_7 d) j.
Proof.
  intros. unfold armed. cbn [d_7]. rewrite set_enabled_bit, set_rw_putf, set_len_putf, !putf_bit by (apply rw_field_small || apply len_field_small).
  replace (16 + 4 * N.of_nat i + 2) with (18 + 4 * N.of_nat i) by lia. replace (18 + 4 * N.of_nat i + 2) with (20 + 4 * N.of_nat i) by lia. reflexivity.
Qed.
Lemma armed_slot : forall d i a n k j, length (d_addr d) = 4%nat -> (i < 4)%nat -> (j < 4)%nat ->
  slot (armed d i a n k) j = if (i =? j)%nat then Some (a, len_field n, rw_field k) else slot d j.
Proof.
  intros d i a n k j L I J. unfold slot. rewrite !field_bits, !armed_bit. cbn [armed d_addr]. rewrite nth_set_addr by lia.
  pose proof (field_whole _ (len_field_small n)) as FL. pose proof (field_whole _ (rw_field_small k)) as FR.
  destruct i as [|[|[|[|]]]]; try lia; destruct j as [|[|[|[|]]]]; try lia; cbn; cbn in FL, FR; congruence.
Qed.
Definition disarmed (d : dregs) (i : nat) : dregs := Dregs (d_addr d) (set_enabled (d_7 d) i false).
Lemma disarmed_slot : forall d i j, (i < 4)%nat -> (j < 4)%nat -> slot (disarmed d i) j = if (i =? j)%nat then None else slot d j.
Proof.
  intros d i j I J. unfold slot. rewrite !field_bits. unfold disarmed. cbn [d_7 d_addr]. rewrite !set_enabled_bit.
  destruct i as [|[|[|[|]]]]; try lia; destruct j as [|[|[|[|]]]]; try lia; cbn; reflexivity.
Qed.

Lemma has_slot : forall d i a, get_enabled (d_7 d) i && (nth i (d_addr d) 0 =? a) = has a (slot d i).
Proof. intros d i a. rewrite enabled_bit. unfold slot. destruct (N.testbit (d_7 d) (2 * N.of_nat i)); reflexivity. Qed.
Lemma free_slot : forall d i, negb (get_enabled (d_7 d) i) = match slot d i with None => true | _ => false end.
Proof. intros d i. rewrite enabled_bit. unfold slot. destruct (N.testbit (d_7 d) (2 * N.of_nat i)); reflexivity. Qed.

Lemma step_sim : forall d o, length (d_addr d) = 4%nat ->
  let r := match o with AddW a len k => add_watchpoint d a len k | RemoveW a len k => remove_watchpoint d a len k end in
  step_w (watched d) o = (fst r, watched (snd r)) /\ length (d_addr (snd r)) = 4%nat /\ forall j, foreign j -> N.testbit (d_7 (snd r)) j = N.testbit (d_7 d) j.
Proof.
  intros d o L. cbv zeta. destruct o as [a n k|a n k].
  - unfold add_watchpoint, step_w, watched, indices. cbn [find existsb]. rewrite !has_slot, !free_slot.
    pose proof (fun i j => armed_slot d i a n k j L) as AS.
    assert (FO : forall i j, (i < 4)%nat -> foreign j -> N.testbit (d_7 (armed d i a n k)) j = N.testbit (d_7 d) j).
    { intros i j I F. rewrite armed_bit. unfold foreign in F. destruct (j =? 2 * N.of_nat i) eqn:E1; [lia|].
      destruct ((16 + 4 * N.of_nat i <=? j) && (j <? 18 + 4 * N.of_nat i)) eqn:E2; [lia|].
      destruct ((18 + 4 * N.of_nat i <=? j) && (j <? 20 + 4 * N.of_nat i)) eqn:E3; [lia | reflexivity]. }
    assert (LA : forall i, length (d_addr (armed d i a n k)) = 4%nat) by (intros i; cbn [armed d_addr]; rewrite set_addr_length; exact L).
    destruct (has a (slot d 0)) eqn:H0; [cbn; auto|]. destruct (has a (slot d 1)) eqn:H1; [cbn; auto|].
    destruct (has a (slot d 2)) eqn:H2; [cbn; auto|]. destruct (has a (slot d 3)) eqn:H3; [cbn; auto|]. cbn [orb].
    destruct (slot d 0) as [s0|] eqn:S0.
    2:{ cbn [into_free fst snd]. fold (armed d 0 a n k). rewrite !AS by lia. cbn [Nat.eqb]. split; [reflexivity|]. split; [apply LA | intros j F; apply FO; [lia | exact F]]. }
    destruct (slot d 1) as [s1|] eqn:S1.
    2:{ cbn [into_free fst snd]. fold (armed d 1 a n k). rewrite !AS by lia. cbn [Nat.eqb]. rewrite ?S0. split; [reflexivity|]. split; [apply LA | intros j F; apply FO; [lia | exact F]]. }
    destruct (slot d 2) as [s2|] eqn:S2.
    2:{ cbn [into_free fst snd]. fold (armed d 2 a n k). rewrite !AS by lia. cbn [Nat.eqb]. rewrite ?S0, ?S1. split; [reflexivity|]. split; [apply LA | intros j F; apply FO; [lia | exact F]]. }
    destruct (slot d 3) as [s3|] eqn:S3.
    2:{ cbn [into_free fst snd]. fold (armed d 3 a n k). rewrite !AS by lia. cbn [Nat.eqb]. rewrite ?S0, ?S1, ?S2. split; [reflexivity|]. split; [apply LA | intros j F; apply FO; [lia | exact F]]. }
    cbn [into_free fst snd]. rewrite S0, S1, S2, S3. split; [reflexivity|]. split; [exact L | reflexivity].
  - unfold remove_watchpoint, step_w, watched, indices. cbn [find existsb drop_first]. rewrite !has_slot.
    pose proof (disarmed_slot d) as AS.
    assert (FO : forall i j, (i < 4)%nat -> foreign j -> N.testbit (d_7 (disarmed d i)) j = N.testbit (d_7 d) j).
    { intros i j I F. unfold disarmed. cbn [d_7]. rewrite set_enabled_bit. unfold foreign in F. destruct (j =? 2 * N.of_nat i) eqn:E1; [lia | reflexivity]. }
    destruct (has a (slot d 0)) eqn:H0; [|destruct (has a (slot d 1)) eqn:H1; [|destruct (has a (slot d 2)) eqn:H2; [|destruct (has a (slot d 3)) eqn:H3]]]; cbn [orb fst snd].
    + fold (disarmed d 0). rewrite !AS by lia. cbn [Nat.eqb]. split; [reflexivity|]. split; [exact L | intros j F; apply FO; [lia | exact F]].
    + fold (disarmed d 1). rewrite !AS by lia. cbn [Nat.eqb]. split; [reflexivity|]. split; [exact L | intros j F; apply FO; [lia | exact F]].
    + fold (disarmed d 2). rewrite !AS by lia. cbn [Nat.eqb]. split; [reflexivity|]. split; [exact L | intros j F; apply FO; [lia | exact F]].
    + fold (disarmed d 3). rewrite !AS by lia. cbn [Nat.eqb]. split; [reflexivity|]. split; [exact L | intros j F; apply FO; [lia | exact F]].
    + split; [reflexivity|]. split; [exact L | reflexivity].
Qed.
