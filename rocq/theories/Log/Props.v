(** * Properties of the memory log (C27, C28, C50, C51) *)

From Verif Require Import Base.Prelude Base.Bytes Align.Model Align.Proofs Log.Spec Log.Model Log.Proofs Log.Conc Log.ConcProofs.
From Coq Require Import Permutation.
Open Scope N_scope.

(** ** C28: appending and iterating *)

(** A sequence of appends. *)
Fixpoint add_all (dbg : bool) (l : log) (es : list entry) : list outcome * log :=
  match es with
  | [] => ([], l)
  | e :: r => let '(o, l1) := add_log_entry dbg l e in
              let '(os, l2) := add_all dbg l1 r in (o :: os, l2)
  end.

(** Whether each message found room. *)
Fixpoint fits (room : N) (es : list entry) : list bool :=
  match es with
  | [] => []
  | e :: r => if slot_size e <=? room then true :: fits (room - slot_size e) r else false :: fits room r
  end.

Lemma add_all_spec dbg : forall es l old,
  log_ok l -> Forall entry_ok old -> Forall entry_ok es -> log_holds l old -> i_disc (l_info l) < 2 ^ 32 ->
  let room := i_size (l_info l) - total_size old in
  let '(os, l') := add_all dbg l es in
  os = map (fun b : bool => if b then Done else Failed OutOfResources) (fits room es)
  /\ log_ok l' /\ log_holds l' (old ++ accepted room es)
  /\ i_off (l_info l') = i_off (l_info l) /\ i_size (l_info l') = i_size (l_info l)
  /\ i_disc (l_info l') = (i_disc (l_info l) + rejected_size room es) mod 2 ^ 32.
Proof.
  induction es as [|e es IH]; intros l old Hl Ho Hes Hh Hd room; cbn [add_all fits accepted rejected_size map].
  - rewrite app_nil_r, N.add_0_r. rewrite N.mod_small by auto. auto 10.
  - inversion Hes as [|? ? He Hes']; subst.
    pose proof (add_entry_spec dbg l e old Hl Ho He Hh) as A. cbv zeta in A.
    destruct (add_log_entry dbg l e) as [o l1]. destruct A as (A1 & A2 & A3 & A4). fold room in A4.
    destruct (slot_size e <=? room) eqn:E.
    + destruct A4 as (-> & A5 & A6).
      assert (Ho' : Forall entry_ok (old ++ [e])) by (apply Forall_app; auto).
      specialize (IH l1 (old ++ [e]) A1 Ho' Hes' A5 ltac:(rewrite A6; auto)). cbv zeta in IH.
      rewrite total_size_app in IH. cbn [total_size] in IH. rewrite A3 in IH.
      replace (i_size (l_info l) - (total_size old + (slot_size e + 0))) with (room - slot_size e) in IH by (unfold room; lia).
      destruct (add_all dbg l1 es) as [os l2]. destruct IH as (-> & B2 & B3 & B4 & B5 & B6).
      cbn [map]. rewrite A6 in B6. rewrite <- app_assoc in B3. cbn [app] in B3. rewrite B4, B5, A2. auto 10.
    + destruct A4 as (-> & A5 & A6).
      specialize (IH l1 old A1 Ho Hes' A5 ltac:(rewrite A6; apply N.mod_lt; lia)). cbv zeta in IH.
      rewrite A3 in IH. fold room in IH.
      destruct (add_all dbg l1 es) as [os l2]. destruct IH as (-> & B2 & B3 & B4 & B5 & B6).
      cbn [map]. rewrite B4, B5, A2.
      split; [reflexivity|]. split; [auto|]. split; [auto|]. split; [auto|]. split; [auto|].
      rewrite B6, A6. rewrite N.add_mod_idemp_l by lia. f_equal. lia.
Qed.

Lemma accepted_ok room es : Forall entry_ok es -> Forall entry_ok (accepted room es).
Proof.
  intros H. revert room. induction H as [|e es He H IH]; intros room; cbn [accepted]; auto.
  destruct (slot_size e <=? room); auto.
Qed.

(** Iterating a log returns exactly the messages that found room, in order
    and unchanged; each append reports whether its message found room, and
    the sizes of the others are counted.  [old] is what the log held. *)
Theorem c28_appends_iterate dbg l old es :
  log_ok l -> Forall entry_ok old -> log_holds l old -> i_disc (l_info l) < 2 ^ 32 -> Forall entry_ok es ->
  let room := i_size (l_info l) - total_size old in
  let '(os, l') := add_all dbg l es in
  os = map (fun b : bool => if b then Done else Failed OutOfResources) (fits room es)
  /\ iter l' = Some (old ++ accepted room es)
  /\ i_disc (l_info l') = (i_disc (l_info l) + rejected_size room es) mod 2 ^ 32.
Proof.
  intros Hl Ho Hh Hd Hes room. pose proof (add_all_spec dbg es l old Hl Ho Hes Hh Hd) as A. cbv zeta in A.
  fold room in A. destruct (add_all dbg l es) as [os l']. destruct A as (A1 & A2 & A3 & A4 & A5 & A6).
  repeat (apply conj); auto. apply iter_holds; auto.
  - apply Forall_app. split; auto. apply accepted_ok; auto.
  - destruct A2 as (K1 & K2 & K3 & K4). destruct A3 as [A3 _]. lia.
Qed.

(** From a freshly initialised log of [length] bytes, whatever the memory
    held before. *)
Theorem c28_initialize dbg address length data es :
  address mod 8 = 0 -> address <> 0 -> 80 <= length -> length + 2 ^ 17 < 2 ^ 32 -> Forall entry_ok es ->
  exists l, initialize_memory_log address length data = Some l
  /\ iter l = Some []
  /\ let '(os, l') := add_all dbg l es in
     os = map (fun b : bool => if b then Done else Failed OutOfResources) (fits (length - 80) es)
     /\ iter l' = Some (accepted (length - 80) es)
     /\ i_disc (l_info l') = rejected_size (length - 80) es mod 2 ^ 32.
Proof.
  intros Ha Hz Hl Hb Hes. unfold initialize_memory_log, INFO_SIZE.
  replace (length <? 80) with false by lia. rewrite Ha. cbn [N.eqb negb orb].
  replace (address =? 0) with false by lia.
  unfold adopt_memory_log, info_new. cbn [i_signature i_version i_off i_size]. rewrite !N.eqb_refl. cbn [negb orb].
  replace (INFO_SIZE <? INFO_SIZE) with false by reflexivity. eexists. split; [reflexivity|].
  set (l := Log _ _ _ _).
  assert (L : log_ok l). { unfold l, log_ok, INFO_SIZE. cbn [l_info i_off i_size i_cur l_len l_rw].
    repeat (apply conj); auto; try lia. }
  assert (H : log_holds l []).
  { split; [reflexivity|]. intros k Hk. cbn in Hk. lia. }
  split; [apply iter_holds; auto; cbn; lia|].
  pose proof (c28_appends_iterate dbg l [] es L (Forall_nil _) H) as A. cbv zeta in A.
  unfold l in A at 1. cbn [l_info i_disc] in A. specialize (A ltac:(cbn; lia) Hes).
  change (i_size (l_info l)) with (length - 80) in A. cbn [total_size] in A. rewrite N.sub_0_r in A.
  destruct (add_all dbg l es) as [os l']. exact A.
Qed.

(** *** Reopening from raw memory *)

(** The memory a log occupies: the 80-byte header (with [f1..f6] in the fields
    the reader ignores), a gap up to the buffer offset, and the data. *)
Definition header_image (h : info) (f1 f2 f3 f4 f5 f6 : list N) : list N :=
  le_bytes 4 (i_signature h) ++ le_bytes 2 (i_version h) ++ f1 ++ le_bytes 4 (i_off h) ++ f2
  ++ le_bytes 4 (i_cur h) ++ le_bytes 4 (i_disc h) ++ le_bytes 4 (i_size h) ++ f3
  ++ [if i_hw_disabled h then 1 else 0] ++ f4 ++ le_bytes 8 (i_freq h) ++ f5 ++ le_bytes 4 (i_hw_level h) ++ f6.

Definition fillers_ok (f1 f2 f3 f4 f5 f6 : list N) : Prop :=
  length f1 = 6%nat /\ length f2 = 4%nat /\ length f3 = 4%nat /\ length f4 = 3%nat
  /\ length f5 = 24%nat /\ length f6 = 4%nat.

Definition info_ok (h : info) : Prop :=
  i_signature h < 2 ^ 32 /\ i_version h < 2 ^ 16 /\ i_off h < 2 ^ 32 /\ i_cur h < 2 ^ 32 /\ i_disc h < 2 ^ 32
  /\ i_size h < 2 ^ 32 /\ i_freq h < 2 ^ 64 /\ i_hw_level h < 2 ^ 32.

Definition memory_of (l : log) (f1 f2 f3 f4 f5 f6 gap : list N) : list N :=
  header_image (l_info l) f1 f2 f3 f4 f5 f6 ++ gap ++ map (fun k => l_data l (N.of_nat k)) (seq 0 (N.to_nat (l_len l))).

Lemma header_image_length h f1 f2 f3 f4 f5 f6 : fillers_ok f1 f2 f3 f4 f5 f6 ->
  length (header_image h f1 f2 f3 f4 f5 f6) = 80%nat.
Proof.
  intros (H1 & H2 & H3 & H4 & H5 & H6). unfold header_image.
  rewrite !app_length, !le_bytes_length, H1, H2, H3, H4, H5, H6. reflexivity.
Qed.

Lemma le_at_skip a b o w : (length a <= o)%nat -> le_at (a ++ b) o w = le_at b (o - length a) w.
Proof. intros H. unfold le_at. rewrite skipn_app, (skipn_all2 a) by auto. reflexivity. Qed.

Lemma le_at_here w v b : v < 256 ^ N.of_nat w -> le_at (le_bytes w v ++ b) 0 w = v.
Proof. intros H. apply (le_at_app [] v w b H). Qed.

Ltac field :=
  repeat (rewrite le_at_skip by (cbn [length]; rewrite ?le_bytes_length; lia));
  cbn [length]; rewrite ?le_bytes_length;
  repeat match goal with H : length ?f = _ |- _ => rewrite H end; cbn [Nat.sub]; apply le_at_here; assumption.

Lemma read_header h f1 f2 f3 f4 f5 f6 rest : fillers_ok f1 f2 f3 f4 f5 f6 -> info_ok h ->
  read_info (header_image h f1 f2 f3 f4 f5 f6 ++ rest) = h.
Proof.
  intros (H1 & H2 & H3 & H4 & H5 & H6) (K1 & K2 & K3 & K4 & K5 & K6 & K7 & K8).
  unfold read_info, header_image. rewrite <- !app_assoc.
  destruct h as [sig ver off cur disc sz hw fr lv].
  cbn [i_signature i_version i_off i_cur i_disc i_size i_hw_disabled i_freq i_hw_level] in *.
  f_equal; try field.
  replace [if hw then 1 else 0] with (le_bytes 1 (if hw then 1 else 0)) by (destruct hw; reflexivity).
  assert (E : forall X, X = (if hw then 1 else 0) -> negb (X =? 0) = hw) by (intros X ->; destruct hw; reflexivity).
  apply E. assert (Hb : (if hw then 1 else 0) < 256 ^ N.of_nat 1) by (destruct hw; reflexivity). field.
Qed.

(** Iteration looks only at the bytes below the current offset. *)
Lemma iter_next_ext l1 l2 off :
  i_off (l_info l1) = i_off (l_info l2) -> i_cur (l_info l1) = i_cur (l_info l2) ->
  i_off (l_info l1) <= off ->
  i_cur (l_info l1) <= i_off (l_info l1) + l_len l1 -> i_cur (l_info l1) <= i_off (l_info l1) + l_len l2 ->
  (forall k, i_off (l_info l1) + k < i_cur (l_info l1) -> l_data l1 k = l_data l2 k) ->
  iter_next l1 off = iter_next l2 off.
Proof.
  intros E1 E2 Ho L1 L2 D.
  assert (G : forall i n, i_off (l_info l1) + i + n <= i_cur (l_info l1) -> get_slice l1 i n = get_slice l2 i n).
  { intros i n H. unfold get_slice. replace (i + n <=? l_len l1) with true by lia.
    replace (i + n <=? l_len l2) with true by lia. f_equal. apply map_ext_in. intros k Hk. apply in_seq in Hk.
    apply D. lia. }
  unfold iter_next. rewrite <- E1, <- E2. unfold ENTRY_SIZE.
  destruct (i_cur (l_info l1) <? off + 24) eqn:C1; [reflexivity|].
  rewrite <- G by lia. destruct (get_slice l1 (off - i_off (l_info l1)) 24) as [hs|]; [|reflexivity].
  destruct (i_cur (l_info l1) <? off + 24 + le_at hs 20 2) eqn:C2; [reflexivity|].
  rewrite <- G by lia. reflexivity.
Qed.

Lemma iter_next_grows l off e off' : iter_next l off = Some (e, off') ->
  off + 24 <= off' /\ off + 24 + e_len e <= i_cur (l_info l).
Proof.
  unfold iter_next, ENTRY_SIZE. destruct (i_cur (l_info l) <? off + 24); [discriminate|].
  destruct (get_slice l _ 24) as [hs|]; [|discriminate].
  destruct (i_cur (l_info l) <? off + 24 + le_at hs 20 2) eqn:C; [discriminate|].
  destruct (get_slice l _ (le_at hs 20 2)) as [d|] eqn:G; [|discriminate].
  assert (Ld : N.of_nat (length d) = le_at hs 20 2).
  { unfold get_slice in G. destruct (_ <=? _); [|discriminate]. injection G as <-.
    rewrite map_length, seq_length. lia. }
  destruct (align_up 64 (24 + le_at hs 20 2) 8) as [a| |] eqn:A; try discriminate.
  intros [= <- <-]. unfold e_len. cbn [e_data]. rewrite Ld. split; [|lia].
  change 8 with (2 ^ 3) in A. rewrite align_up_eq in A. change (2 ^ 3) with 8 in A.
  assert (Hy : 24 <= 24 + le_at hs 20 2) by lia. set (y := 24 + le_at hs 20 2) in A, Hy. clearbody y.
  assert (Hb : 8 * (y / 8) >= 24) by lia. set (z := y / 8 * 8 + 8) in A.
  assert (Hz : 24 <= z) by lia. clearbody z.
  destruct (y mod 8 =? 0); [injection A as A; lia|]. destruct (z <? 2 ^ 64); [|discriminate]. injection A as A. lia.
Qed.

Lemma iter_collect_ext l1 l2 : forall fuel off,
  i_off (l_info l1) = i_off (l_info l2) -> i_cur (l_info l1) = i_cur (l_info l2) ->
  i_off (l_info l1) <= off ->
  i_cur (l_info l1) <= i_off (l_info l1) + l_len l1 -> i_cur (l_info l1) <= i_off (l_info l1) + l_len l2 ->
  (forall k, i_off (l_info l1) + k < i_cur (l_info l1) -> l_data l1 k = l_data l2 k) ->
  iter_collect fuel l1 off = iter_collect fuel l2 off.
Proof.
  induction fuel as [|fuel IH]; intros off E1 E2 Ho L1 L2 D; [reflexivity|]. cbn [iter_collect].
  rewrite (iter_next_ext l1 l2) by auto. destruct (iter_next l2 off) as [[e off']|] eqn:N; [|reflexivity].
  apply iter_next_grows in N. rewrite IH; auto. lia.
Qed.

(** A log reopened from any copy of its memory that reaches at least to the
    current offset iterates identically, whatever its contents. *)
Theorem c28_reopen l f1 f2 f3 f4 f5 f6 gap n :
  fillers_ok f1 f2 f3 f4 f5 f6 -> info_ok (l_info l) ->
  i_signature (l_info l) = SIGNATURE -> i_version (l_info l) = VERSION ->
  80 <= i_off (l_info l) -> N.of_nat (length gap) = i_off (l_info l) - 80 ->
  i_off (l_info l) <= i_cur (l_info l) <= i_off (l_info l) + i_size (l_info l) ->
  i_off (l_info l) + i_size (l_info l) < 2 ^ 32 -> l_len l = i_size (l_info l) ->
  i_cur (l_info l) <= n ->
  forall dbg, exists l',
    open_log dbg (firstn (N.to_nat n) (memory_of l f1 f2 f3 f4 f5 f6 gap)) = Ok l'
    /\ iter l' = iter l /\ l_info l' = l_info l.
Proof.
  intros Hf Hi Hs Hv Ho Hg Hc Hsz Hl Hn dbg.
  set (M := memory_of l f1 f2 f3 f4 f5 f6 gap).
  assert (LM : N.of_nat (length M) = i_off (l_info l) + i_size (l_info l)).
  { unfold M, memory_of. rewrite !app_length, header_image_length, map_length, seq_length by auto. lia. }
  set (b := firstn (N.to_nat n) M).
  assert (Lb : N.of_nat (length b) = N.min n (i_off (l_info l) + i_size (l_info l))).
  { unfold b. rewrite firstn_length. lia. }
  assert (R : read_info b = l_info l).
  { unfold b, M, memory_of. rewrite firstn_app, header_image_length by auto.
    rewrite firstn_all2 by (rewrite header_image_length by auto; lia).
    apply read_header; auto. }
  unfold open_log. rewrite R, Lb. set (n' := N.min n _).
  unfold INFO_SIZE. replace (n' <? 80) with false by (unfold n'; lia).
  rewrite Hs, Hv, !N.eqb_refl. cbn [negb]. replace (i_cur (l_info l) <? i_off (l_info l)) with false by lia.
  unfold full_size, add32, two32.
  assert (Hlt : i_off (l_info l) + i_size (l_info l) <? 2 ^ 32 = true) by (now apply N.ltb_lt).
  rewrite Hlt. replace (i_off (l_info l) + i_size (l_info l) <? i_cur (l_info l)) with false by lia.
  replace (i_off (l_info l) <? 80) with false by lia. cbn [orb].
  rewrite (N.mod_small n' (2 ^ 32)) by (unfold n'; lia).
  replace (n' <? i_cur (l_info l)) with false by (unfold n'; lia).
  replace (n' <? i_off (l_info l)) with false by (unfold n'; lia).
  eexists. split; [reflexivity|]. split; [|reflexivity].
  unfold iter. cbn [l_info]. apply iter_collect_ext; cbn [l_info l_data l_len]; try lia.
  - rewrite skipn_length. lia.
  - intros k Hk.
    assert (Sk : skipn (N.to_nat (i_off (l_info l))) M = map (fun k => l_data l (N.of_nat k)) (seq 0 (N.to_nat (l_len l)))).
    { unfold M, memory_of. rewrite app_assoc.
      replace (N.to_nat (i_off (l_info l))) with (length (header_image (l_info l) f1 f2 f3 f4 f5 f6 ++ gap))
        by (rewrite app_length, header_image_length by auto; lia).
      apply skipn_app_exact. }
    unfold b. rewrite skipn_firstn_comm, Sk.
    rewrite <- (firstn_skipn (N.to_nat n - N.to_nat (i_off (l_info l))) (map _ (seq 0 (N.to_nat (l_len l))))) in Sk.
    transitivity (nth (N.to_nat k) (map (fun k => l_data l (N.of_nat k)) (seq 0 (N.to_nat (l_len l)))) 0).
    + rewrite <- (firstn_skipn (N.to_nat n - N.to_nat (i_off (l_info l))) (map _ (seq 0 (N.to_nat (l_len l))))) at 2.
      rewrite app_nth1; [reflexivity|]. rewrite firstn_length, map_length, seq_length. lia.
    + rewrite (nth_indep _ 0 (l_data l (N.of_nat 0))) by (rewrite map_length, seq_length; lia).
      rewrite (map_nth (fun k => l_data l (N.of_nat k))), seq_nth by lia. f_equal. lia.
Qed.

(** ** C51: reading any bytes *)

Lemma iter_collect_total l : forall fuel off,
  (N.to_nat (i_cur (l_info l) - off) < fuel)%nat -> exists es, iter_collect fuel l off = Some es.
Proof.
  induction fuel as [|fuel IH]; intros off H; [lia|]. cbn [iter_collect].
  destruct (iter_next l off) as [[e off']|] eqn:N; [|eauto].
  apply iter_next_grows in N. destruct (IH off') as (es & ->); [lia|]. cbn. eauto.
Qed.

Lemma iter_total l : exists es, iter l = Some es.
Proof. apply iter_collect_total. lia. Qed.

Lemma iter_collect_each l (P : entry -> Prop) :
  (forall off e off', i_off (l_info l) <= off -> iter_next l off = Some (e, off') -> P e) ->
  forall fuel off es, i_off (l_info l) <= off -> iter_collect fuel l off = Some es ->
  Forall P es /\ (es = [] \/ off + 24 * N.of_nat (length es) <= i_cur (l_info l)).
Proof.
  intros HP. induction fuel as [|fuel IH]; intros off es Ho H; cbn [iter_collect] in H; [discriminate|].
  destruct (iter_next l off) as [[e off']|] eqn:N; [|injection H as <-; auto].
  destruct (iter_collect fuel l off') as [r|] eqn:R; [|discriminate]. injection H as <-.
  pose proof (iter_next_grows _ _ _ _ N) as G. destruct (IH off' r ltac:(lia) R) as [F L].
  split; [constructor; eauto|]. right. cbn [length]. destruct L as [->|L]; cbn [length]; lia.
Qed.

(** The bytes [b], read at [i], are those of the message [e]. *)
Definition lies_in (b : list N) (e : entry) : Prop :=
  exists i, 80 + 24 <= i /\ i + e_len e <= N.of_nat (length b)
            /\ e_data e = firstn (N.to_nat (e_len e)) (skipn (N.to_nat i) b).

(** Opening any byte string as a log in a release build ends with a log or an
    error, and iterating it ends; every message returned is a piece of the
    byte string behind the header, and they are at most as many as fit. *)
Theorem c51_reader_total b :
  open_log false b <> Panic /\
  forall l, open_log false b = Ok l ->
  exists es, iter l = Some es /\ Forall (lies_in b) es
             /\ 24 * N.of_nat (length es) + 80 <= N.of_nat (length b).
Proof.
  unfold open_log. set (h := read_info b). set (n := N.of_nat (length b)).
  unfold INFO_SIZE.
  destruct (n <? 80) eqn:C1; [split; [discriminate|intros l; discriminate]|].
  destruct (negb (i_signature h =? SIGNATURE)); [split; [discriminate|intros l; discriminate]|].
  destruct (negb (i_version h =? VERSION)); [split; [discriminate|intros l; discriminate]|].
  destruct (i_cur h <? i_off h) eqn:C2; [split; [discriminate|intros l; discriminate]|].
  assert (F : exists full, full_size false h = Some full).
  { unfold full_size, add32. destruct (i_off h + i_size h <? two32); eauto. }
  destruct F as (full & ->).
  destruct ((full <? i_cur h) || (i_off h <? 80)) eqn:C3; [split; [discriminate|intros l; discriminate]|].
  apply orb_false_iff in C3. destruct C3 as [C3 C4].
  destruct (n mod two32 <? i_cur h) eqn:C5; [split; [discriminate|intros l; discriminate]|].
  assert (Hn : n mod two32 <= n) by (apply N.mod_le; discriminate).
  replace (n <? i_off h) with false by lia. split; [discriminate|]. intros l [= <-].
  set (l := Log _ _ _ _). destruct (iter_total l) as (es & He). exists es. split; [auto|].
  unfold iter in He. apply iter_collect_each with (P := lies_in b) in He; try lia.
  - destruct He as [F L]. split; auto. cbn [l_info l] in L. destruct L as [->|L]; [cbn [length]; lia|].
    unfold l in L. cbn [l_info] in L. lia.
  - intros off e off' Ho N. pose proof (iter_next_grows _ _ _ _ N) as [_ G]. unfold l in Ho, G. cbn [l_info] in *.
    exists (off + 24). split; [lia|]. split; [lia|].
    unfold iter_next, ENTRY_SIZE in N. unfold l in N at 1. cbn [l_info] in N.
    destruct (i_cur h <? off + 24); [discriminate|].
    destruct (get_slice l _ 24) as [hs|]; [|discriminate].
    destruct (i_cur (l_info l) <? off + 24 + le_at hs 20 2) eqn:C; [discriminate|].
    destruct (get_slice l _ (le_at hs 20 2)) as [d|] eqn:Gs; [|discriminate].
    destruct (align_up 64 (24 + le_at hs 20 2) 8) as [a| |]; try discriminate.
    injection N as <- <-. cbn [e_data]. unfold e_len in *. cbn [e_data] in *.
    unfold get_slice in Gs. destruct (_ <=? _) eqn:Gl; [|discriminate]. injection Gs as <-.
    rewrite map_length, seq_length in *. unfold l in *. cbn [l_data l_info l_len] in *.
    rewrite Nat2N.id.
    apply nth_ext with (d := nth (N.to_nat (off - i_off h + 24 + N.of_nat 0)) (skipn (N.to_nat (i_off h)) b) 0) (d' := 0).
    + rewrite map_length, seq_length, firstn_length, skipn_length. lia.
    + intros k Hk. rewrite map_length, seq_length in Hk.
      rewrite (map_nth (fun k => nth (N.to_nat (off - i_off h + 24 + N.of_nat k)) (skipn (N.to_nat (i_off h)) b) 0)).
      rewrite seq_nth by auto. cbn [Nat.add].
      rewrite nth_firstn, !nth_skipn by auto. f_equal. lia.
Qed.

(** In a debug build a header whose buffer offset and size add up to 2^32 or
    more panics. *)
Theorem c51_debug_panic_refuted : exists b, bytes_ok b /\ open_log true b = Panic.
Proof.
  exists (header_image (Info SIGNATURE VERSION 80 80 0 (2 ^ 32 - 1) false 0 0)
            (repeat 0 6) (repeat 0 4) (repeat 0 4) (repeat 0 3) (repeat 0 24) (repeat 0 4)).
  split; [|vm_compute; reflexivity]. unfold bytes_ok. vm_compute. repeat constructor.
Qed.

(** ** Limits *)

Lemma iter_first l e off' es : iter_next l (i_off (l_info l)) = Some (e, off') -> iter l = Some es ->
  exists r, es = e :: r.
Proof.
  intros H K. unfold iter in K. cbn [iter_collect] in K. rewrite H in K.
  destruct (iter_collect _ l off') as [r|]; [|discriminate]. injection K as <-. eauto.
Qed.

(** A message of 65536 bytes is accepted, but the length field holds 16 bits:
    it is not what iteration returns. *)
Lemma long_data : exists m : list N, N.of_nat (length m) = 65536 /\ bytes_ok m.
Proof.
  exists (repeat 66 (N.to_nat 65536)). split; [rewrite repeat_length, N2Nat.id; reflexivity|].
  apply Forall_forall. intros x I. apply repeat_spec in I. subst. lia.
Qed.

Theorem c28_long_message_refuted :
  exists l e, log_ok l /\ log_holds l [] /\ bytes_ok (e_data e) /\ e_len e = 65536 /\
    let '(r, l') := add_log_entry false l e in r = Done /\ iter l' <> Some [e].
Proof.
  set (h := Info SIGNATURE VERSION 80 80 0 100000 false 0 0).
  destruct long_data as (m & Lm & Hm).
  exists (Log h (fun _ => 0) 100000 true), (Entry 4 1 0 m).
  split; [unfold log_ok; cbn; lia|]. split; [split; [reflexivity|intros k Hk; cbn in Hk; lia]|].
  split; [exact Hm|]. split; [exact Lm|].
  set (e := Entry 4 1 0 m). assert (Le : e_len e = 65536) by exact Lm.
  set (hb := header_bytes e).
  assert (Hb : exists rest, stored_bytes e 65560 = hb ++ rest) by (eexists; reflexivity).
  destruct Hb as (rest & Hb).
  assert (Hbv : hb = [65; 76; 77; 50; 2; 0; 1; 0; 0; 0; 0; 0; 0; 0; 0; 0; 0; 0; 4; 0; 0; 0; 24; 0]).
  { unfold hb, header_bytes. rewrite Le. reflexivity. }
  unfold add_log_entry, message_size. rewrite Le. cbv [l_info h i_cur i_off i_size].
  replace (add32 false ENTRY_SIZE (65536 mod two32)) with (Some 65560) by reflexivity.
  replace (align_up 32 65560 8) with (Ok (E := efi_error) 65560) by reflexivity.
  change (full_size false _) with (Some 100080).
  change (add32 false 80 65560) with (Some 65640). change (65640 <=? 100080) with true.
  change (sub32 false 80 80) with (Some 0). cbv [l_rw l_len negb].
  change (100000 <? 0 + 65560) with false. change (65560 <? ENTRY_SIZE + 65536) with false.
  cbv [l_data]. rewrite Hb. split; [reflexivity|]. intros K.
  set (l' := Log _ _ _ _) in K. assert (Ll : l_len l' = 100000) by reflexivity.
  assert (N : iter_next l' (i_off (l_info l')) = Some (Entry 4 1 0 [], 104)).
  { unfold iter_next, l'. cbv [l_info i_cur i_off]. change (65640 <? 80 + ENTRY_SIZE) with false. cbv iota.
    assert (B : bytes_at (write_at (fun _ => 0) 0 (hb ++ rest)) 0 (hb ++ rest)) by apply write_at_spec.
    fold l'. change (80 - 80) with 0.
    assert (G : get_slice l' 0 ENTRY_SIZE = Some hb).
    { change ENTRY_SIZE with (N.of_nat 24). replace 24%nat with (length hb) by (rewrite Hbv; reflexivity).
      eapply get_slice_at; [exact B|]. rewrite Hbv. cbn. lia. }
    rewrite G, Hbv. clearbody l'.
    match goal with |- context [le_at ?x 20 2] => change (le_at x 20 2) with 0 end. cbv zeta.
    change (65640 <? 80 + ENTRY_SIZE + 0) with false. cbv iota.
    assert (G2 : get_slice l' (0 + ENTRY_SIZE) 0 = Some []) by (unfold get_slice; rewrite Ll; reflexivity).
    rewrite G2. reflexivity. }
  destruct (iter_first _ _ _ _ N K) as (r & E). unfold e in E. injection E as Em _. rewrite Em in Lm. discriminate Lm.
Qed.

(** Appending to a log opened read-only is refused, but only after the
    shared counter has been advanced: the log then shows an entry nobody
    wrote. *)
Theorem c28_read_only_add_refuted :
  exists b l e, open_log false b = Ok l /\ iter l = Some [] /\ entry_ok e /\
    let '(r, l') := add_log_entry false l e in r = Failed AccessDenied /\ iter l' <> Some [].
Proof.
  exists (header_image (Info SIGNATURE VERSION 80 80 0 64 false 0 0)
            (repeat 0 6) (repeat 0 4) (repeat 0 4) (repeat 0 3) (repeat 0 24) (repeat 0 4) ++ repeat 0 64).
  eexists. exists (Entry 4 1 0 [72; 105]). split; [vm_compute; reflexivity|].
  split; [vm_compute; reflexivity|]. split; [repeat (apply conj); try (cbn; lia); repeat constructor|].
  split; [vm_compute; reflexivity|]. vm_compute. discriminate.
Qed.

Example c28_case :
  let es := [Entry 4 1 7 [72; 105; 10]; Entry 4 2 8 (repeat 65 60); Entry 4 1 9 []] in
  exists l, initialize_memory_log 4096 160 (fun _ => 170) = Some l /\
  fst (add_all false l es) = [Done; Failed OutOfResources; Done]
  /\ iter (snd (add_all false l es)) = Some [Entry 4 1 7 [72; 105; 10]; Entry 4 1 9 []]
  /\ i_disc (l_info (snd (add_all false l es))) = 88.
Proof. eexists. split; [vm_compute; reflexivity|]. vm_compute. auto. Qed.

Example c28_reopen_case :
  fillers_ok (repeat 0 6) (repeat 0 4) (repeat 0 4) (repeat 0 3) (repeat 0 24) (repeat 0 4)
  /\ info_ok (Info SIGNATURE VERSION 88 120 3 100 false 0 0).
Proof. repeat split; vm_compute; reflexivity. Qed.

Print Assumptions c28_appends_iterate.
Print Assumptions c28_initialize.
Print Assumptions c28_reopen.
Print Assumptions c28_long_message_refuted.
Print Assumptions c28_read_only_add_refuted.
Print Assumptions c51_reader_total.
Print Assumptions c51_debug_panic_refuted.
