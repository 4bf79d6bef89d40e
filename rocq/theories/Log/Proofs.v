(** * Lemmas about the memory log *)

From Verif Require Import Base.Prelude Base.Bytes Align.Model Align.Proofs Log.Spec Log.Model.
Open Scope N_scope.

Lemma align_up8 w x : 20 <= w -> x < 2 ^ 17 -> align_up w x 8 = Ok (8 * ((x + 7) / 8)).
Proof.
  intros Hw Hx. change 8 with (2 ^ 3) at 1. rewrite align_up_eq. change (2 ^ 3) with 8.
  assert (B : 2 ^ 20 <= 2 ^ w) by (apply N.pow_le_mono_r; lia).
  change (2 ^ 20) with 1048576 in B. change (2 ^ 17) with 131072 in Hx.
  set (P := 2 ^ w) in *. clearbody P.
  destruct (x mod 8 =? 0) eqn:E; [f_equal; lia|].
  replace (x / 8 * 8 + 8 <? P) with true by lia. f_equal. lia.
Qed.

Lemma e_len_nat e : N.to_nat (e_len e) = length (e_data e).
Proof. unfold e_len. lia. Qed.

Lemma slot_size_bounds e : 24 + e_len e <= slot_size e /\ slot_size e < 24 + e_len e + 8 /\ slot_size e mod 8 = 0.
Proof. unfold slot_size. lia. Qed.

Lemma message_size_ok dbg e : e_len e < 2 ^ 16 -> message_size dbg e = Some (slot_size e).
Proof.
  intros H. unfold message_size, ENTRY_SIZE. change (2 ^ 16) with 65536 in H.
  rewrite (N.mod_small (e_len e) two32) by (unfold two32; lia).
  unfold add32. replace (24 + e_len e <? two32) with true by (unfold two32; lia).
  rewrite align_up8; [reflexivity|lia|]. change (2 ^ 17) with 131072. lia.
Qed.

Lemma header_image e : e_len e < 2 ^ 16 ->
  header_bytes e = [65; 76; 77; 50] ++ [2; 0] ++ le_bytes 4 (e_level e) ++ le_bytes 8 (e_time e)
  ++ le_bytes 2 (e_phase e) ++ le_bytes 2 (e_len e) ++ le_bytes 2 24.
Proof.
  intros H. unfold header_bytes. rewrite (N.mod_small (e_len e) two16) by exact H. reflexivity.
Qed.

Lemma header_length e : length (header_bytes e) = 24%nat.
Proof. unfold header_bytes. rewrite !app_length, !le_bytes_length. reflexivity. Qed.

Lemma stored_image e : e_len e < 2 ^ 16 -> stored_bytes e (slot_size e) = slot_image e.
Proof.
  intros H. unfold stored_bytes, slot_image. rewrite header_image by auto. rewrite <- !app_assoc. reflexivity.
Qed.

Lemma slot_image_split e : e_len e < 2 ^ 16 ->
  slot_image e = header_bytes e ++ e_data e ++ repeat 0 (N.to_nat (slot_size e - 24 - e_len e)).
Proof. intros H. rewrite <- stored_image by auto. reflexivity. Qed.

Lemma stored_length e sz : 24 + e_len e <= sz -> N.of_nat (length (stored_bytes e sz)) = sz.
Proof.
  intros H. unfold stored_bytes. rewrite !app_length, header_length, repeat_length.
  unfold ENTRY_SIZE, e_len in *. lia.
Qed.

Lemma slot_image_length e : e_len e < 2 ^ 16 -> N.of_nat (length (slot_image e)) = slot_size e.
Proof. intros H. rewrite <- stored_image by auto. apply stored_length. apply slot_size_bounds. Qed.

Lemma slot_image_length_nat e : e_len e < 2 ^ 16 -> length (slot_image e) = N.to_nat (slot_size e).
Proof. intros H. rewrite <- slot_image_length by auto. lia. Qed.

Lemma log_image_length es : Forall entry_ok es -> N.of_nat (length (log_image es)) = total_size es.
Proof.
  induction 1 as [|e es He H IH]; [reflexivity|]. unfold log_image in *. cbn [flat_map total_size].
  rewrite app_length, Nat2N.inj_add, IH, slot_image_length by apply He. reflexivity.
Qed.

Lemma total_size_app a b : total_size (a ++ b) = total_size a + total_size b.
Proof. induction a; cbn [app total_size]; lia. Qed.

Lemma log_image_app a b : log_image (a ++ b) = log_image a ++ log_image b.
Proof. apply flat_map_app. Qed.

Lemma header_fields e rest : entry_ok e ->
  le_at (header_bytes e ++ rest) 20 2 = e_len e /\ le_at (header_bytes e ++ rest) 18 2 = e_phase e
  /\ le_at (header_bytes e ++ rest) 6 4 = e_level e /\ le_at (header_bytes e ++ rest) 10 8 = e_time e.
Proof.
  intros (H1 & H2 & H3 & _ & H5). rewrite header_image by auto.
  set (p0 := [65; 76; 77; 50] ++ [2; 0]).
  repeat split.
  - replace (_ ++ rest) with ((p0 ++ le_bytes 4 (e_level e) ++ le_bytes 8 (e_time e) ++ le_bytes 2 (e_phase e))
      ++ le_bytes 2 (e_len e) ++ (le_bytes 2 24 ++ rest)) by (unfold p0; rewrite <- !app_assoc; reflexivity).
    apply le_at_app'; [rewrite !app_length, !le_bytes_length; reflexivity|exact H5].
  - replace (_ ++ rest) with ((p0 ++ le_bytes 4 (e_level e) ++ le_bytes 8 (e_time e))
      ++ le_bytes 2 (e_phase e) ++ (le_bytes 2 (e_len e) ++ le_bytes 2 24 ++ rest))
      by (unfold p0; rewrite <- !app_assoc; reflexivity).
    apply le_at_app'; [rewrite !app_length, !le_bytes_length; reflexivity|exact H1].
  - replace (_ ++ rest) with (p0 ++ le_bytes 4 (e_level e) ++ (le_bytes 8 (e_time e)
      ++ le_bytes 2 (e_phase e) ++ le_bytes 2 (e_len e) ++ le_bytes 2 24 ++ rest))
      by (unfold p0; rewrite <- !app_assoc; reflexivity).
    apply le_at_app'; [reflexivity|exact H2].
  - replace (_ ++ rest) with ((p0 ++ le_bytes 4 (e_level e)) ++ le_bytes 8 (e_time e)
      ++ (le_bytes 2 (e_phase e) ++ le_bytes 2 (e_len e) ++ le_bytes 2 24 ++ rest))
      by (unfold p0; rewrite <- !app_assoc; reflexivity).
    apply le_at_app'; [rewrite !app_length, !le_bytes_length; reflexivity|exact H3].
Qed.

(** The bytes of [l] at [i ..] are [bs]. *)
Definition bytes_at (f : N -> N) (i : N) (bs : list N) : Prop :=
  forall k, k < N.of_nat (length bs) -> f (i + k) = nth (N.to_nat k) bs 0.

Lemma bytes_at_app f i a b :
  bytes_at f i (a ++ b) <-> bytes_at f i a /\ bytes_at f (i + N.of_nat (length a)) b.
Proof.
  unfold bytes_at. split.
  - intros H. split.
    + intros k Hk. rewrite H by (rewrite app_length; lia). rewrite app_nth1 by lia. reflexivity.
    + intros k Hk. rewrite <- N.add_assoc, H by (rewrite app_length; lia).
      rewrite app_nth2 by lia. f_equal. lia.
  - intros [Ha Hb] k Hk. rewrite app_length in Hk.
    destruct (N.ltb_spec k (N.of_nat (length a))) as [L|L].
    + rewrite Ha, app_nth1 by lia. reflexivity.
    + replace (i + k) with (i + N.of_nat (length a) + (k - N.of_nat (length a))) by lia.
      rewrite Hb by lia. rewrite app_nth2 by lia. f_equal. lia.
Qed.

Lemma get_slice_at l i bs rest :
  bytes_at (l_data l) i (bs ++ rest) -> i + N.of_nat (length bs) <= l_len l ->
  get_slice l i (N.of_nat (length bs)) = Some bs.
Proof.
  intros H Hl. unfold get_slice. replace (i + N.of_nat (length bs) <=? l_len l) with true by lia. f_equal.
  apply bytes_at_app in H. destruct H as [H _]. rewrite Nat2N.id.
  apply nth_ext with (d := 0) (d' := 0); rewrite map_length, seq_length; auto.
  intros n Hn. rewrite nth_indep with (d' := l_data l (i + N.of_nat 0)) by (rewrite map_length, seq_length; auto).
  rewrite (map_nth (fun k => l_data l (i + N.of_nat k))), seq_nth by auto. cbn [Nat.add].
  rewrite H by lia. f_equal. lia.
Qed.

Lemma get_slice_firstn l i n bs :
  bytes_at (l_data l) i bs -> (N.to_nat n <= length bs)%nat -> i + n <= l_len l ->
  get_slice l i n = Some (firstn (N.to_nat n) bs).
Proof.
  intros H Hn Hl. rewrite <- (firstn_skipn (N.to_nat n) bs) in H.
  assert (L : N.of_nat (length (firstn (N.to_nat n) bs)) = n) by (rewrite firstn_length; lia).
  rewrite <- L at 1. eapply get_slice_at; eauto. now rewrite L.
Qed.

Lemma iter_next_entry l off e :
  entry_ok e -> i_off (l_info l) <= off -> off + slot_size e <= i_cur (l_info l) ->
  off - i_off (l_info l) + slot_size e <= l_len l ->
  bytes_at (l_data l) (off - i_off (l_info l)) (slot_image e) ->
  iter_next l off = Some (e, off + slot_size e).
Proof.
  intros He Hoff Hcur Hlen Hb. pose proof He as (_ & _ & _ & _ & H5).
  destruct (slot_size_bounds e) as (S1 & S2 & _).
  unfold iter_next, ENTRY_SIZE. replace (i_cur (l_info l) <? off + 24) with false by lia.
  set (i := off - i_off (l_info l)) in *.
  rewrite slot_image_split in Hb by auto.
  assert (G1 : get_slice l i 24 = Some (header_bytes e)).
  { change 24 with (N.of_nat 24). rewrite <- (header_length e). eapply get_slice_at; eauto.
    rewrite header_length. lia. }
  rewrite G1. pose proof (header_fields e [] He) as (F1 & F2 & F3 & F4). rewrite app_nil_r in *.
  rewrite F1, F2, F3, F4. replace (i_cur (l_info l) <? off + 24 + e_len e) with false by lia.
  apply bytes_at_app in Hb. destruct Hb as [_ Hb]. rewrite header_length in Hb.
  change (N.of_nat 24) with 24 in Hb.
  assert (G2 : get_slice l (i + 24) (e_len e) = Some (e_data e)).
  { unfold e_len. eapply get_slice_at; eauto. fold (e_len e). lia. }
  rewrite G2. rewrite align_up8 by (try lia; change (2 ^ 17) with 131072; change (2 ^ 16) with 65536 in H5; lia).
  destruct e; reflexivity.
Qed.

Lemma iter_collect_spec l es : forall off fuel,
  Forall entry_ok es -> i_off (l_info l) <= off ->
  i_cur (l_info l) = off + total_size es ->
  off - i_off (l_info l) + total_size es <= l_len l ->
  bytes_at (l_data l) (off - i_off (l_info l)) (log_image es) ->
  (length es < fuel)%nat ->
  iter_collect fuel l off = Some es.
Proof.
  induction es as [|e es IH]; intros off fuel Hok Hoff Hcur Hlen Hb Hf;
    (destruct fuel as [|fuel]; [cbn in Hf; lia|]); cbn [iter_collect].
  - unfold iter_next. cbn [total_size] in Hcur. unfold ENTRY_SIZE.
    replace (i_cur (l_info l) <? off + 24) with true by lia. reflexivity.
  - inversion Hok as [|? ? He Hok']; subst. cbn [total_size length] in *.
    unfold log_image in Hb. cbn [flat_map] in Hb. apply bytes_at_app in Hb. destruct Hb as [H1 H2].
    rewrite slot_image_length in H2 by apply He.
    rewrite (iter_next_entry l off e) by (auto; lia). rewrite IH; auto; try lia.
    replace (off + slot_size e - i_off (l_info l)) with (off - i_off (l_info l) + slot_size e) by lia. auto.
Qed.

Lemma iter_collect_prefix l es : forall off fuel,
  Forall entry_ok es -> off + total_size es <= i_cur (l_info l) ->
  off - i_off (l_info l) + total_size es <= l_len l ->
  bytes_at (l_data l) (off - i_off (l_info l)) (log_image es) ->
  i_off (l_info l) <= off ->
  (length es <= fuel)%nat ->
  iter_collect fuel l off = option_map (app es) (iter_collect (fuel - length es) l (off + total_size es)).
Proof.
  induction es as [|e es IH]; intros off fuel Hok Hcur Hlen Hb Hoff Hf.
  - cbn [total_size length]. rewrite N.add_0_r, Nat.sub_0_r. destruct (iter_collect fuel l off); reflexivity.
  - inversion Hok as [|? ? He Hok']; subst. cbn [total_size length] in *.
    destruct fuel as [|fuel]; [lia|]. cbn [iter_collect Nat.sub].
    unfold log_image in Hb. cbn [flat_map] in Hb. apply bytes_at_app in Hb. destruct Hb as [H1 H2].
    rewrite slot_image_length in H2 by apply He.
    rewrite (iter_next_entry l off e) by (auto; lia). rewrite IH; auto; try lia.
    + rewrite N.add_assoc. destruct (iter_collect (fuel - length es) l _); reflexivity.
    + replace (off + slot_size e - i_off (l_info l)) with (off - i_off (l_info l) + slot_size e) by lia. auto.
Qed.

Lemma total_size_ge es : 24 * N.of_nat (length es) <= total_size es.
Proof.
  induction es as [|e es IH]; [cbn; lia|]. cbn [total_size length]. pose proof (slot_size_bounds e). lia.
Qed.

(** The log holds exactly [es]. *)
Definition log_holds (l : log) (es : list entry) : Prop :=
  i_cur (l_info l) = i_off (l_info l) + total_size es
  /\ bytes_at (l_data l) 0 (log_image es).

Lemma iter_holds l es : Forall entry_ok es -> log_holds l es -> total_size es <= l_len l -> iter l = Some es.
Proof.
  intros Hok [H1 H2] Hl. unfold iter. apply iter_collect_spec; auto; try lia.
  - rewrite N.sub_diag. exact H2.
  - pose proof (total_size_ge es). lia.
Qed.

Lemma write_at_spec f i bs : bytes_at (write_at f i bs) i bs.
Proof.
  intros k Hk. unfold write_at. replace ((i <=? i + k) && (i + k <? i + N.of_nat (length bs))) with true by lia.
  f_equal. lia.
Qed.

Lemma write_at_other f i bs a : a < i \/ i + N.of_nat (length bs) <= a -> write_at f i bs a = f a.
Proof. intros H. unfold write_at. replace ((i <=? a) && (a <? i + N.of_nat (length bs))) with false by lia. reflexivity. Qed.

(** A log that can be appended to: sizes well below 2^32 and the region as
    long as the header says. *)
Definition log_ok (l : log) : Prop :=
  i_off (l_info l) + i_size (l_info l) + 2 ^ 17 < 2 ^ 32
  /\ i_cur (l_info l) <= i_off (l_info l) + i_size (l_info l)
  /\ l_len l = i_size (l_info l) /\ l_rw l = true.

Lemma full_size_ok dbg l : log_ok l -> full_size dbg (l_info l) = Some (i_off (l_info l) + i_size (l_info l)).
Proof.
  intros (H & _). unfold full_size, add32, two32.
  change (2 ^ 17) with 131072 in H. replace (_ <? 2 ^ 32) with true; [reflexivity|].
  symmetry. apply N.ltb_lt. lia.
Qed.

Lemma add_entry_spec dbg l e es :
  log_ok l -> Forall entry_ok es -> entry_ok e -> log_holds l es ->
  let room := i_size (l_info l) - total_size es in
  let '(r, l') := add_log_entry dbg l e in
  log_ok l' /\ i_off (l_info l') = i_off (l_info l) /\ i_size (l_info l') = i_size (l_info l) /\
  if slot_size e <=? room
  then r = Done /\ log_holds l' (es ++ [e]) /\ i_disc (l_info l') = i_disc (l_info l)
  else r = Failed OutOfResources /\ log_holds l' es
       /\ i_disc (l_info l') = (i_disc (l_info l) + slot_size e) mod 2 ^ 32.
Proof.
  intros Hok Hes He [Hcur Hb] room. pose proof Hok as (K1 & K2 & K3 & K4). pose proof He as (_ & _ & _ & _ & H5).
  destruct (slot_size_bounds e) as (S1 & S2 & _).
  unfold add_log_entry. rewrite message_size_ok, full_size_ok by auto.
  change (2 ^ 16) with 65536 in H5. change (2 ^ 17) with 131072 in K1.
  assert (A : add32 dbg (i_cur (l_info l)) (slot_size e) = Some (i_cur (l_info l) + slot_size e)).
  { unfold add32, two32. replace (_ <? 2 ^ 32) with true; [reflexivity|]. symmetry. apply N.ltb_lt. lia. }
  rewrite A.
  assert (R : (i_cur (l_info l) + slot_size e <=? i_off (l_info l) + i_size (l_info l)) = (slot_size e <=? room)) by (subst room; lia).
  rewrite R. destruct (slot_size e <=? room) eqn:E.
  - assert (B : sub32 dbg (i_cur (l_info l)) (i_off (l_info l)) = Some (total_size es)).
    { unfold sub32. replace (_ <=? _) with true by lia. f_equal. lia. }
    rewrite B, K4. cbn [negb]. replace (l_len l <? total_size es + slot_size e) with false by lia.
    replace (slot_size e <? ENTRY_SIZE + e_len e) with false by (unfold ENTRY_SIZE; lia).
    cbn [l_info i_off i_size i_cur i_disc l_len l_rw].
    split; [|split; [reflexivity|split; [reflexivity|split; [reflexivity|split; [|reflexivity]]]]].
    + unfold log_ok. cbn [l_info i_off i_size i_cur l_len l_rw]. change (2 ^ 17) with 131072. auto 10 with *.
      repeat (apply conj); auto; lia.
    + split; cbn [l_info i_off i_cur l_data].
      * rewrite total_size_app. cbn [total_size]. lia.
      * rewrite log_image_app. apply bytes_at_app. split.
        -- intros k Hk. rewrite write_at_other; [auto|]. rewrite log_image_length in Hk by auto. lia.
        -- rewrite log_image_length by auto. cbn [N.add]. unfold log_image. cbn [flat_map]. rewrite app_nil_r.
           rewrite stored_image by auto. apply write_at_spec.
  - cbn [l_info i_off i_size i_cur i_disc l_len l_rw]. unfold two32.
    split; [|split; [reflexivity|split; [reflexivity|split; [reflexivity|split; [|reflexivity]]]]].
    + unfold log_ok. cbn [l_info i_off i_size i_cur l_len l_rw]. change (2 ^ 17) with 131072.
      repeat (apply conj); auto; lia.
    + split; auto.
Qed.
