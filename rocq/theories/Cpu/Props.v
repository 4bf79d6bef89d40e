(** Cache maintenance: what holds and what does not. *)
From Verif Require Import Base.Prelude Cpu.Model Cpu.Spec Align.Proofs.
From Coq Require Import Lia ZifyBool ZifyNat ZifyN.
Local Open Scope N_scope.

(** ** Lines *)

(** C87: the length of a line is a power of two, as the register says, between 4 bytes and 128 KiB. *)
Theorem c87_line : forall ctr, exists k, 2 <= k /\ k <= 17 /\ k = 2 + ctr / 2 ^ 16 mod 16 /\ line_len ctr = 2 ^ k.
Proof.
  intros ctr. exists (2 + ctr / 2 ^ 16 mod 16). pose proof (N.mod_lt (ctr / 2 ^ 16) 16 ltac:(discriminate)). split; [lia|]. split; [lia|]. split; [reflexivity|].
  unfold line_len. rewrite N.shiftr_div_pow2. replace (N.land (ctr / 2 ^ 16) 15) with (ctr / 2 ^ 16 mod 16) by (symmetry; apply (N.land_ones _ 4)).
  rewrite N.shiftl_mul_pow2, N.pow_add_r. reflexivity.
Qed.

(** ** The loop *)

Lemma loop_ok : forall dbg step e f fuel a, 0 < step -> e + step <= 2 ^ 64 -> a < e \/ a + step <= 2 ^ 64 - 1 -> e <= a + step * N.of_nat fuel -> (0 < fuel)%nat -> exists ops, cache_loop dbg fuel step a e f = Ok ops.
Proof.
  intros dbg step e f fuel. induction fuel as [|fuel IH]; intros a S0 E A F P; [lia|]. cbn [cache_loop]. unfold uadd.
  destruct (a + step <? two64) eqn:U; [|unfold two64 in U; lia]. cbn [bind]. destruct (e <=? a + step) eqn:D; [eexists; reflexivity|].
  destruct (IH (a + step)) as [ops O]; [lia | lia | lia | lia | lia |]. rewrite O. eexists. reflexivity.
Qed.
Lemma loop_in : forall dbg step e f fuel a ops, cache_loop dbg fuel step a e f = Ok ops -> 0 < step -> e + step <= 2 ^ 64 -> (a < e \/ a + step <= 2 ^ 64 - 1) ->
  forall g x, In (g, x) ops -> g = f /\ a <= x /\ (x = a \/ x < e).
Proof.
  intros dbg step e f fuel. induction fuel as [|fuel IH]; intros a ops H S0 E A g x I; [discriminate|]. cbn [cache_loop] in H. unfold uadd in H.
  destruct (a + step <? two64) eqn:U; [|unfold two64 in U; lia]. cbn [bind] in H. destruct (e <=? a + step) eqn:D.
  - assert (O : ops = [(f, a)]) by congruence. subst ops. destruct I as [I | []]. assert (g = f) by congruence. assert (x = a) by congruence. subst. split; [reflexivity|]. lia.
  - destruct (cache_loop dbg fuel step (a + step) e f) as [r| |] eqn:R; cbn [bind] in H; [|discriminate|discriminate]. assert (O : ops = (f, a) :: r) by congruence. subst ops.
    destruct I as [I | I].
    + assert (g = f) by congruence. assert (x = a) by congruence. subst. split; [reflexivity|]. lia.
    + destruct (IH _ _ R S0 E ltac:(lia) g x I) as (G & X1 & X2). split; [exact G|]. lia.
Qed.
(** Between any two addresses [step] + 1 apart there is one that is visited. *)
Lemma loop_hits : forall dbg step e f fuel a ops, cache_loop dbg fuel step a e f = Ok ops -> 0 < step -> e + step <= 2 ^ 64 -> (a < e \/ a + step <= 2 ^ 64 - 1) ->
  forall l, a <= l -> l + step < e -> exists x, In (f, x) ops /\ l <= x /\ x < l + step.
Proof.
  intros dbg step e f fuel. induction fuel as [|fuel IH]; intros a ops H S0 E A l L1 L2; [discriminate|]. cbn [cache_loop] in H. unfold uadd in H.
  destruct (a + step <? two64) eqn:U; [|unfold two64 in U; lia]. cbn [bind] in H. destruct (e <=? a + step) eqn:D; [lia|].
  destruct (cache_loop dbg fuel step (a + step) e f) as [r| |] eqn:R; cbn [bind] in H; [|discriminate|discriminate]. assert (O : ops = (f, a) :: r) by congruence. subst ops.
  destruct (N.eq_dec l a) as [-> | NE].
  - exists a. split; [left; reflexivity|]. lia.
  - destruct (N.lt_ge_cases l (a + step)) as [LT | GE].
    + (* the next address *)
      exists (a + step). split; [|lia]. right. destruct fuel as [|fuel]; [discriminate|]. cbn [cache_loop] in R. unfold uadd in R.
      destruct (a + step + step <? two64) eqn:U'; [|unfold two64 in U'; lia]. cbn [bind] in R. destruct (e <=? a + step + step).
      * assert (r = [(f, a + step)]) by congruence. subst r. left. reflexivity.
      * destruct (cache_loop dbg fuel step (a + step + step) e f) as [r'| |]; cbn [bind] in R; [|discriminate|discriminate]. assert (r = (f, a + step) :: r') by congruence. subst r. left. reflexivity.
    + destruct (IH _ _ R S0 E ltac:(lia) l GE L2) as (x & X1 & X2). exists x. split; [right; exact X1 | exact X2].
Qed.

(** ** AArch64 *)

Lemma len_bounds : forall k, 2 <= k -> k <= 17 -> 4 <= 2 ^ k /\ 2 ^ k <= 131072.
Proof. intros k K2 K17. split; [apply (N.pow_le_mono_r 2 2 k); lia | apply (N.pow_le_mono_r 2 k 17); lia]. Qed.
Lemma flush_eq : forall ctr k, 2 <= k -> k <= 17 -> line_len ctr = 2 ^ k -> forall dbg fuel start length f, start + length < 2 ^ 64 ->
  arm_flush dbg fuel ctr start length f = cache_loop dbg fuel (2 ^ k - 1) (start / 2 ^ k * 2 ^ k) (start + length) f.
Proof.
  intros ctr k K2 K17 KL dbg fuel start length f B. unfold arm_flush. rewrite KL. unfold uadd. destruct (start + length <? two64) eqn:U; [|unfold two64 in U; lia]. cbn [bind].
  f_equal. replace (2 ^ k - 1) with (N.ones k) by (rewrite N.ones_equiv, <- N.sub_1_r; reflexivity). rewrite N.land_ones. pose proof (N.div_mod start (2 ^ k) ltac:(pose proof (len_bounds k K2 K17); lia)) as D.
  clear - D. revert D. generalize (2 ^ k) (start / 2 ^ k) (start mod 2 ^ k). clear. intros l q r D. nia.
Qed.

Lemma base_bounds : forall k x, 2 <= k -> x / 2 ^ k * 2 ^ k <= x /\ x < x / 2 ^ k * 2 ^ k + 2 ^ k.
Proof.
  intros k x K. assert (2 ^ k <> 0) by (apply N.pow_nonzero; discriminate). pose proof (N.div_mod x (2 ^ k) H) as D. pose proof (N.mod_lt x (2 ^ k) H) as M. clear - D M.
  revert D M. generalize (2 ^ k) (x / 2 ^ k) (x mod 2 ^ k). clear. intros l q r D M. nia.
Qed.
Lemma same_line : forall len a b, len <> 0 -> b / len * len <= a -> a < b / len * len + len -> a / len = b / len.
Proof. intros len a b L H1 H2. symmetry. apply (N.div_unique a len (b / len) (a - b / len * len)); lia. Qed.

(** C87: unless the range ends within a line of the end of memory, the flush ends and does not panic. *)
Theorem c87_ends : forall dbg ctr start length f fuel, start + length + line_len ctr <= 2 ^ 64 -> (N.to_nat (length + line_len ctr) < fuel)%nat ->
  exists ops, arm_flush dbg fuel ctr start length f = Ok ops.
Proof.
  intros dbg ctr start length f fuel B F. destruct (c87_line ctr) as (k & K2 & K17 & _ & KL). pose proof (len_bounds k K2 K17) as [L1 L2]. rewrite KL in *.
  rewrite (flush_eq ctr k K2 K17 KL) by lia. destruct (base_bounds k start K2) as [B1 B2]. apply loop_ok; [lia | lia | lia | | lia]. nia.
Qed.
(** C87: only the operation asked for is done, on lines of the range. *)
Theorem c87_only : forall dbg ctr start length f fuel ops, start + length + line_len ctr <= 2 ^ 64 -> arm_flush dbg fuel ctr start length f = Ok ops ->
  forall g a, In (g, a) ops -> g = f /\ (a / line_len ctr = start / line_len ctr \/ start <= a /\ a < start + length).
Proof.
  intros dbg ctr start length f fuel ops B H g a I. destruct (c87_line ctr) as (k & K2 & K17 & _ & KL). pose proof (len_bounds k K2 K17) as [L1 L2]. rewrite KL in *.
  rewrite (flush_eq ctr k K2 K17 KL) in H by lia. destruct (base_bounds k start K2) as [B1 B2].
  destruct (loop_in _ _ _ _ _ _ _ H ltac:(lia) ltac:(lia) ltac:(lia) g a I) as (G & A1 & A2). split; [exact G|]. destruct A2 as [-> | A2].
  - left. apply N.div_mul. lia.
  - destruct (N.lt_ge_cases a start) as [LT | GE]; [left|right; lia]. apply same_line; lia.
Qed.
(** C87, but for the last line: every line of the range that ends within it is treated. *)
Theorem c87_covered_partial : forall dbg ctr start length f fuel ops, start + length + line_len ctr <= 2 ^ 64 -> arm_flush dbg fuel ctr start length f = Ok ops ->
  forall x, start <= x -> (x / line_len ctr + 1) * line_len ctr <= start + length -> treated (line_len ctr) ops x.
Proof.
  intros dbg ctr start length f fuel ops B H x X1 X2. destruct (c87_line ctr) as (k & K2 & K17 & _ & KL). pose proof (len_bounds k K2 K17) as [L1 L2]. rewrite KL in *.
  rewrite (flush_eq ctr k K2 K17 KL) in H by lia. destruct (base_bounds k start K2) as [B1 B2]. destruct (base_bounds k x K2) as [C1 C2].
  assert (LE : start / 2 ^ k * 2 ^ k <= x / 2 ^ k * 2 ^ k) by (apply N.mul_le_mono_r, N.div_le_mono; lia).
  destruct (loop_hits _ _ _ _ _ _ _ H ltac:(lia) ltac:(lia) ltac:(lia) (x / 2 ^ k * 2 ^ k) LE ltac:(lia)) as (a & I & A1 & A2).
  exists f, a. split; [exact I|]. apply same_line; lia.
Qed.
(** C87: a range that ends at a line is treated as a whole. *)
Theorem c87_whole_lines : forall dbg ctr start length f fuel ops, start + length + line_len ctr <= 2 ^ 64 -> (start + length) mod line_len ctr = 0 ->
  arm_flush dbg fuel ctr start length f = Ok ops -> forall x, start <= x -> x < start + length -> treated (line_len ctr) ops x.
Proof.
  intros dbg ctr start length f fuel ops B M H x X1 X2. apply (c87_covered_partial _ _ _ _ _ _ _ B H x X1). destruct (c87_line ctr) as (k & K2 & K17 & _ & KL).
  pose proof (len_bounds k K2 K17) as [L1 L2]. rewrite KL in *. destruct (base_bounds k x K2) as [C1 C2]. pose proof (N.div_mod (start + length) (2 ^ k) ltac:(lia)) as D. rewrite M in D.
  assert (x / 2 ^ k < (start + length) / 2 ^ k) by nia. nia.
Qed.
(** Not so: any range.  The step is one byte less than a line, and the loop ends at the first address behind the range: one byte more than a line, from
    the start of a line, and the second line is not treated … *)
Theorem c87_last_line_refuted : forall dbg ctr start f fuel ops, start mod line_len ctr = 0 -> start + 3 * line_len ctr <= 2 ^ 64 ->
  arm_flush dbg fuel ctr start (line_len ctr + 1) f = Ok ops -> ~ treated (line_len ctr) ops (start + line_len ctr).
Proof.
  intros dbg ctr start f fuel ops M B H (g & a & I & E). destruct (c87_line ctr) as (k & K2 & K17 & _ & KL). pose proof (len_bounds k K2 K17) as [L1 L2]. rewrite KL in *.
  rewrite (flush_eq ctr k K2 K17 KL) in H by lia. pose proof (N.div_mod start (2 ^ k) ltac:(lia)) as D. rewrite M in D. replace (start / 2 ^ k * 2 ^ k) with start in H by lia.
  assert (T : (start + 2 ^ k) / 2 ^ k = start / 2 ^ k + 1) by (replace (start + 2 ^ k) with (start + 1 * 2 ^ k) by lia; apply N.div_add; lia). rewrite T in E.
  destruct (base_bounds k a K2) as [A1 A2]. rewrite E in A1, A2.
  destruct fuel as [|fuel]; [discriminate|]. cbn [cache_loop] in H. unfold uadd in H. destruct (start + (2 ^ k - 1) <? two64) eqn:U; [|unfold two64 in U; lia]. cbn [bind] in H.
  destruct (start + (2 ^ k + 1) <=? start + (2 ^ k - 1)) eqn:D1; [lia|].
  destruct fuel as [|fuel]; [discriminate|]. cbn [cache_loop] in H. unfold uadd in H. destruct (start + (2 ^ k - 1) + (2 ^ k - 1) <? two64) eqn:U'; [|unfold two64 in U'; lia]. cbn [bind] in H.
  destruct (start + (2 ^ k + 1) <=? start + (2 ^ k - 1) + (2 ^ k - 1)) eqn:D2; [|lia]. cbn [bind] in H.
  assert (O : ops = [(f, start); (f, start + (2 ^ k - 1))]) by congruence. subst ops.
  destruct I as [I | [I | []]]; [assert (a = start) by congruence | assert (a = start + (2 ^ k - 1)) by congruence]; lia.
Qed.
Lemma run_missed : forall len ops c x, ~ treated len ops x -> mem (run_ops len ops c) x = mem c x /\ cached (run_ops len ops c) x = cached c x.
Proof.
  intros len ops. induction ops as [|[g a] ops IH]; intros c x T; [split; reflexivity|]. unfold run_ops in *. cbn [fold_left].
  destruct (IH (apply_op (fun y => snd (g, a) / len =? y / len) (fst (g, a)) c) x) as [I1 I2].
  - intros (g' & a' & I & E). apply T. exists g', a'. split; [right; exact I | exact E].
  - rewrite I1, I2. cbn [apply_op mem cached fst snd]. destruct (a / len =? x / len) eqn:E; [|split; reflexivity]. exfalso. apply T. exists g, a. split; [left; reflexivity | lia].
Qed.
(** … so what was written there does not get to memory, or what a device wrote there is not seen. *)
Theorem c87_stale_refuted : forall dbg ctr start f fuel ops c, start mod line_len ctr = 0 -> start + 3 * line_len ctr <= 2 ^ 64 ->
  arm_flush dbg fuel ctr start (line_len ctr + 1) f = Ok ops ->
  mem (run_ops (line_len ctr) ops c) (start + line_len ctr) = mem c (start + line_len ctr) /\ cached (run_ops (line_len ctr) ops c) (start + line_len ctr) = cached c (start + line_len ctr).
Proof. intros. eapply run_missed, c87_last_line_refuted; eassumption. Qed.
Lemma run_hit_memory : forall len ops c x, (forall g a, In (g, a) ops -> g = WriteBack \/ g = WriteBackInvalidate) -> mem (run_ops len ops c) x = seen c x \/ ~ treated len ops x.
Proof.
  intros len ops. induction ops as [|[g a] ops IH]; intros c x G; [right; intros (g & a & [] & _)|].
  assert (G' : forall g a, In (g, a) ops -> g = WriteBack \/ g = WriteBackInvalidate) by (intros g' a' I; apply (G g' a'); right; exact I).
  change (run_ops len ((g, a) :: ops) c) with (run_ops len ops (apply_op (fun y => a / len =? y / len) g c)). set (c' := apply_op (fun y => a / len =? y / len) g c).
  assert (SE : seen c' x = seen c x).
  { unfold c', seen. cbn [apply_op mem cached]. destruct (a / len =? x / len); [|reflexivity]. destruct (G g a (or_introl eq_refl)) as [-> | ->]; destruct (cached c x); reflexivity. }
  destruct (IH c' x G') as [M | T]; [left; rewrite M; exact SE|].
  destruct (a / len =? x / len) eqn:E.
  - left. destruct (run_missed len ops c' x T) as [-> _]. unfold c'. cbn [apply_op mem]. rewrite E. unfold seen. destruct (G g a (or_introl eq_refl)) as [-> | ->]; reflexivity.
  - right. intros (g' & a' & [I | I] & E'); [assert (a' = a) by congruence; subst; lia|]. apply T. exists g', a'. split; assumption.
Qed.
(** C87, for a range that ends at a line: after a write-back memory holds what the processor saw, all over the range … *)
Theorem c87_write_back_partial : forall dbg ctr start length f fuel ops c, f <> Invalidate -> start + length + line_len ctr <= 2 ^ 64 -> (start + length) mod line_len ctr = 0 ->
  arm_flush dbg fuel ctr start length f = Ok ops -> forall x, start <= x -> x < start + length -> mem (run_ops (line_len ctr) ops c) x = seen c x.
Proof.
  intros dbg ctr start length f fuel ops c F B M H x X1 X2. destruct (run_hit_memory (line_len ctr) ops c x) as [R | T]; [|exact R|].
  - intros g a I. destruct (c87_only _ _ _ _ _ _ _ B H g a I) as [-> _]. destruct f; [right | left | contradiction]; reflexivity.
  - destruct T. exact (c87_whole_lines _ _ _ _ _ _ _ B M H x X1 X2).
Qed.
(** … and the processor sees the same as before, everywhere. *)
Theorem c87_same_seen : forall dbg ctr start length f fuel ops c, f <> Invalidate -> start + length + line_len ctr <= 2 ^ 64 ->
  arm_flush dbg fuel ctr start length f = Ok ops -> forall x, seen (run_ops (line_len ctr) ops c) x = seen c x.
Proof.
  intros dbg ctr start length f fuel ops c F B H x.
  assert (G : forall g a, In (g, a) ops -> g = f) by (intros g a I; apply (c87_only _ _ _ _ _ _ _ B H g a I)). clear H. revert c. induction ops as [|[g a] ops IH]; intros c; [reflexivity|].
  change (run_ops (line_len ctr) ((g, a) :: ops) c) with (run_ops (line_len ctr) ops (apply_op (fun y => a / line_len ctr =? y / line_len ctr) g c)).
  rewrite IH by (intros g' a' I; apply (G g' a'); right; exact I). rewrite (G g a (or_introl eq_refl)). unfold seen. cbn [apply_op mem cached]. destruct (a / line_len ctr =? x / line_len ctr); [|reflexivity].
  destruct f; [destruct (cached c x); reflexivity | destruct (cached c x); reflexivity | contradiction].
Qed.

(** ** x64 *)

(** C87: writing back and invalidating brings memory up to date everywhere. *)
Theorem c87_x64_write_back : forall f g c x, x64_flush f = Ok g -> f = WriteBackInvalidate -> mem (apply_op (fun _ => true) g c) x = seen c x /\ seen (apply_op (fun _ => true) g c) x = seen c x.
Proof. intros f g c x H ->. assert (g = WriteBackInvalidate) by (cbn in H; congruence). subst g. unfold seen. cbn [apply_op mem cached]. split; reflexivity. Qed.
(** Not so: invalidating a range.  Whatever was written anywhere and is only in the cache is lost. *)
Theorem c87_x64_invalidate_refuted : exists g, x64_flush Invalidate = Ok g /\ forall c x v, cached c x = Some v -> mem c x <> v -> seen c x = v /\ seen (apply_op (fun _ => true) g c) x <> v.
Proof. eexists. split; [reflexivity|]. intros c x v C M. unfold seen. rewrite C. cbn [apply_op mem cached]. split; [reflexivity | exact M]. Qed.
(** Not so: writing back without invalidating; it is refused. *)
Theorem c87_x64_write_back_refuted : x64_flush WriteBack = Err (2 ^ 63 + 3).
Proof. reflexivity. Qed.

(** ** Timers *)

(** C87: the results are written only if there is somewhere to write them and the processor has them. *)
Theorem c87_timer : forall pv pp r, r <> Panic -> r <> Err 0 -> (fst (get_timer_value pv pp r) = 0 <-> snd (get_timer_value pv pp r) <> []).
Proof.
  intros pv pp r P E. unfold get_timer_value. destruct ((pv =? 0) || (pp =? 0)); [split; [discriminate | contradiction]|]. destruct r as [[v p] | e |]; [| |contradiction].
  - split; [discriminate | reflexivity].
  - cbn [fst snd]. split; [congruence | contradiction].
Qed.
Theorem c87_timer_writes : forall pv pp v p, pv <> 0 -> pp <> 0 -> get_timer_value pv pp (Ok (v, p)) = (0, [(pv, v); (pp, p)]).
Proof. intros pv pp v p V P. unfold get_timer_value. replace ((pv =? 0) || (pp =? 0)) with false by lia. reflexivity. Qed.
(** Not so: that there is a timer.  On x64 it stands still and has no period; on AArch64 there is none. *)
Theorem c87_timer_refuted : x64_timer 0 = Ok (0, 0) /\ (forall i, i <> 0 -> x64_timer i = Err (2 ^ 63 + 2)) /\ forall i, arm_timer i = Err (2 ^ 63 + 3).
Proof. split; [reflexivity|]. split; [|reflexivity]. intros i I. unfold x64_timer. replace (i =? 0) with false by lia. reflexivity. Qed.

(** ** Cases *)

(** 64 bytes a line. *)
Definition demo_ctr : N := 0x8444C004.
Example demo_line : line_len demo_ctr = 64. Proof. reflexivity. Qed.
Example demo_flush : arm_flush true 10 demo_ctr 0x1010 0xB0 WriteBack = Ok [(WriteBack, 0x1000); (WriteBack, 0x103F); (WriteBack, 0x107E); (WriteBack, 0x10BD)]. Proof. reflexivity. Qed.
Example demo_missed : arm_flush true 10 demo_ctr 0x1000 65 Invalidate = Ok [(Invalidate, 0x1000); (Invalidate, 0x103F)]. Proof. reflexivity. Qed.

Print Assumptions c87_line.
Print Assumptions c87_ends.
Print Assumptions c87_only.
Print Assumptions c87_covered_partial.
Print Assumptions c87_whole_lines.
Print Assumptions c87_last_line_refuted.
Print Assumptions c87_stale_refuted.
Print Assumptions c87_write_back_partial.
Print Assumptions c87_same_seen.
Print Assumptions c87_x64_write_back.
Print Assumptions c87_x64_invalidate_refuted.
Print Assumptions c87_x64_write_back_refuted.
Print Assumptions c87_timer.
Print Assumptions c87_timer_writes.
Print Assumptions c87_timer_refuted.
