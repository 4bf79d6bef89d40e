(** C55, C56: the services GetMemoryMap and ExitBootServices' check of the map key; examples; what does not hold. *)
From Verif Require Import Base.Prelude Base.Bytes Gcd.Blocks Gcd.Model Gcd.Spec Gcd.BlockProofs Gcd.Proofs Gcd.Props Alloc.Model Alloc.Spec Alloc.Pool Alloc.Pages Alloc.Calls Alloc.System Alloc.History Alloc.Props Alloc.PageProps Alloc.Demo.
From Verif Require Import MemMap.Model MemMap.Spec MemMap.Proofs MemMap.Crc MemMap.Props.
Local Open Scope N_scope.

(** Four bytes of padding in each entry. *)
Definition padding (pads : nat -> list N) : Prop := forall i, length (pads i) = 4%nat /\ bytes_ok (pads i).

(** ** The bytes *)
Lemma descr_length : forall pad d, length pad = 4%nat -> length (descr_bytes pad d) = 40%nat.
Proof. intros. unfold descr_bytes. rewrite !app_length, !le_bytes_length, H. reflexivity. Qed.
Definition entries (pads : nat -> list N) (k : nat) (l : list descr) : list N :=
  concat (map (fun p => descr_bytes (pads (fst p)) (snd p)) (combine (seq k (length l)) l)).
Lemma entries_length : forall pads l k, padding pads -> length (entries pads k l) = (40 * length l)%nat.
Proof.
  intros pads l k P. revert k. induction l as [|d l IH]; intros k; [reflexivity|]. cbn [length]. unfold entries. cbn [length seq combine map concat]. rewrite app_length.
  cbn [fst snd]. rewrite descr_length by apply P. fold (entries pads (S k) l). rewrite IH. lia.
Qed.
Lemma skip_add : forall A (l : list A) a b, skipn (a + b) l = skipn b (skipn a l).
Proof. induction l as [|x l IH]; intros [|a] b; cbn [skipn plus]; auto; now rewrite ?skipn_nil. Qed.
Lemma entry_at : forall pads l k i d, padding pads -> nth_error l i = Some d ->
  exists rest, skipn (i * 40) (entries pads k l) = descr_bytes (pads (k + i)%nat) d ++ rest.
Proof.
  intros pads l. induction l as [|x l IH]; intros k i d P H; [destruct i; discriminate|].
  unfold entries. cbn [length seq combine map concat fst snd]. fold (entries pads (S k) l). destruct i as [|i]; cbn [nth_error] in H.
  - injection H as <-. rewrite Nat.add_0_r. eexists. reflexivity.
  - destruct (IH (S k) i d P H) as (rest & E). exists rest. replace (S i * 40)%nat with (40 + i * 40)%nat by lia. rewrite skip_add.
    pose proof (descr_length (pads k) x (proj1 (P k))) as DL. rewrite skipn_app, DL. rewrite (skipn_all2 (n := 40) (descr_bytes (pads k) x)) by (rewrite DL; apply le_n). cbn [app]. change (40 - 40)%nat with 0%nat. cbn [skipn].
    rewrite E. do 3 f_equal. lia.
Qed.
Lemma field_here : forall (a b c : list N) k n, length a = k -> length b = n -> firstn n (skipn k (a ++ b ++ c)) = b.
Proof.
  intros a b c k n <- <-. rewrite skipn_app, skipn_all, Nat.sub_diag. cbn [skipn app]. rewrite firstn_app, firstn_all, Nat.sub_diag. cbn [firstn]. apply app_nil_r.
Qed.
Lemma entry_describes : forall pads l i d, padding pads -> nth_error l i = Some d -> d_start d < 2 ^ 64 -> d_pages d < 2 ^ 64 -> describes (map_bytes pads l) i d.
Proof.
  intros pads l i d P H F2 F3. destruct (entry_at pads l 0 i d P H) as (rest & E). change (map_bytes pads l) with (entries pads 0 l).
  assert (PL : length (pads (0 + i)%nat) = 4%nat) by apply P. set (pad := pads (0 + i)%nat) in *. clearbody pad.
  unfold describes, entry_field. rewrite !skip_add, E. unfold descr_bytes. rewrite <- !app_assoc.
  pose proof (le_bytes_length 4 (d_type d)) as L1. pose proof (le_bytes_length 8 (d_start d)) as L2. pose proof (le_bytes_length 8 0) as L3.
  pose proof (le_bytes_length 8 (d_pages d)) as L4. pose proof (le_bytes_length 8 (d_attr d)) as L5.
  pose proof (le_val_bytes_mod 4 (d_type d)) as V1. pose proof (le_val_bytes 8 (d_start d) F2) as V2. pose proof (le_val_bytes 8 0 eq_refl) as V3.
  pose proof (le_val_bytes 8 (d_pages d) F3) as V4. pose proof (le_val_bytes_mod 8 (d_attr d)) as V5.
  set (A := le_bytes 4 (d_type d)) in *. set (B := le_bytes 8 (d_start d)) in *. set (C := le_bytes 8 0) in *. set (D := le_bytes 8 (d_pages d)) in *. set (F := le_bytes 8 (d_attr d)) in *.
  split; [|split; [|split; [|split]]].
  - change (2 ^ 32) with (256 ^ N.of_nat 4). rewrite <- V1. f_equal.
  - rewrite (app_assoc A pad). rewrite (field_here (A ++ pad) B) by (auto; rewrite app_length; lia). exact V2.
  - rewrite (app_assoc A pad), (app_assoc (A ++ pad) B). rewrite (field_here ((A ++ pad) ++ B) C) by (auto; rewrite !app_length; lia). exact V3.
  - rewrite (app_assoc A pad), (app_assoc (A ++ pad) B), (app_assoc ((A ++ pad) ++ B) C). rewrite (field_here (((A ++ pad) ++ B) ++ C) D) by (auto; rewrite !app_length; lia). exact V4.
  - rewrite (app_assoc A pad), (app_assoc (A ++ pad) B), (app_assoc ((A ++ pad) ++ B) C), (app_assoc (((A ++ pad) ++ B) ++ C) D).
    rewrite (field_here ((((A ++ pad) ++ B) ++ C) ++ D) F) by (auto; rewrite !app_length; lia). exact V5.
Qed.

(** ** GetMemoryMap *)

(** With memory in the map and a pointer to the size: a buffer that is too small is left alone and the size it needs is
    returned; a buffer of at least that size holds the map, entry by entry, and the key is the checksum of what was
    written. *)
Theorem get_memory_map_contract : forall dbg bits s L pads n m k d v, history dbg bits s L -> padding pads -> the_map false s <> [] ->
  exists st out, get_memory_map pads (s_als s) (s_g s) (Some n) m k d v = Ok (st, out) /\
    o_size out = Some (40 * N.of_nat (length (the_map false s))) /\
    o_desc_size out = (if d then Some 40 else None) /\ o_version out = (if v then Some 1 else None) /\
    if n <? 40 * N.of_nat (length (the_map false s)) then st = GBufferTooSmall /\ o_map out = None /\ o_key out = None
    else if m : bool then st = GSuccess /\ exists bytes, o_map out = Some bytes /\
           length bytes = (40 * length (the_map false s))%nat /\
           (forall i e, nth_error (the_map false s) i = Some e -> describes bytes i e) /\
           o_key out = (if k then Some (crc32 bytes) else None)
    else st = GInvalidParameter /\ o_map out = None /\ o_key out = None.
Proof.
  intros dbg bits s L pads n m k d v H P NE. unfold get_memory_map. fold (the_map false s).
  assert (R : reach dbg bits (s_g s)) by (apply history_inv in H; exact (i_reach _ _ _ _ H)).
  assert (B64 : 2 ^ bits <= 2 ^ 64) by (destruct R as ((a & b & c & R1 & _) & _); apply N.pow_le_mono_r; lia).
  destruct (memory_map_in_order _ _ _ _ false H) as (O1 & _).
  destruct (the_map false s) as [|d0 l] eqn:EM; [contradiction|]. rewrite <- EM in *. set (M := the_map false s) in *. rewrite (N.mul_comm (N.of_nat (length M))).
  destruct (n <? 40 * N.of_nat (length M)); [eexists _, _; split; [reflexivity|]; cbn; auto 10|].
  destruct m; cbn [negb]; eexists _, _; (split; [reflexivity|]; cbn [o_size o_desc_size o_version o_map o_key]); [|auto 10].
  split; [reflexivity|]. split; [reflexivity|]. split; [reflexivity|]. split; [reflexivity|]. exists (map_bytes pads M). split; [reflexivity|].
  split; [apply entries_length; exact P|]. split; [|reflexivity]. intros i e He. apply nth_error_In in He as IN. destruct (O1 e IN) as (X1 & X2 & X3).
  apply entry_describes; auto; lia.
Qed.
Print Assumptions get_memory_map_contract.

(** There is a map as soon as there is a page of memory. *)
Theorem get_memory_map_never_panics : forall dbg bits s L pads size m k d v x st ty, history dbg bits s L -> page_grid (s_g s) ->
  state_at (g_blocks (s_g s)) x = Some st -> reported s st ty -> get_memory_map pads (s_als s) (s_g s) size m k d v <> Panic.
Proof.
  intros dbg bits s L pads size m k d v x st ty H PG ST R. destruct (memory_map_complete _ _ _ _ false _ _ _ H PG ST R) as (e & He & _).
  unfold get_memory_map. fold (the_map false s). destruct size as [n|]; [|discriminate]. destruct (the_map false s); [destruct He|]. destruct (_ <? _); [discriminate|]. destruct m; discriminate.
Qed.
Print Assumptions get_memory_map_never_panics.

(** ** The map key *)

(** The key of a map is accepted as long as the map, and the padding bytes of its entries, are the same. *)
Theorem map_key_accepted : forall pads s n d v st out k s2, get_memory_map pads (s_als s) (s_g s) n true true d v = Ok (st, out) ->
  o_key out = Some k -> the_map false s2 = the_map false s -> terminate_memory_map pads (s_als s2) (s_g s2) k = Ok tt.
Proof.
  intros pads s n d v st out k s2 G K E. unfold get_memory_map in G. fold (the_map false s) in G. destruct n as [n|]; [|injection G as <- <-; discriminate].
  unfold terminate_memory_map. fold (the_map false s2). rewrite E. destruct (the_map false s) as [|d0 l] eqn:EM; [discriminate|]. rewrite <- EM in *.
  destruct (_ <? _); [injection G as <- <-; discriminate|]. injection G as <- <-. cbn [o_key] in K. injection K as <-. rewrite N.eqb_refl. reflexivity.
Qed.
Print Assumptions map_key_accepted.

(** The key of another map is refused if the two maps differ in one place of at most four bytes. *)
Lemma map_bytes_ok : forall pads l, padding pads -> bytes_ok (map_bytes pads l).
Proof.
  intros pads l P. unfold map_bytes. generalize 0%nat. induction l as [|d l IH]; intros k; [constructor|]. cbn [length seq combine map concat]. unfold bytes_ok in *. apply Forall_app. split; [|apply IH].
  unfold descr_bytes. cbn [fst snd]. repeat (apply Forall_app; split); try apply le_bytes_ok. apply P.
Qed.
Theorem map_key_refused_partial : forall pads s n d v st out k s2, padding pads -> get_memory_map pads (s_als s) (s_g s) n true true d v = Ok (st, out) ->
  o_key out = Some k -> small_change (map_bytes pads (the_map false s)) (map_bytes pads (the_map false s2)) ->
  terminate_memory_map pads (s_als s2) (s_g s2) k = Err InvalidParameter.
Proof.
  intros pads s n d v st out k s2 P G K SC. unfold get_memory_map in G. fold (the_map false s) in G. destruct n as [n|]; [|injection G as <- <-; discriminate].
  unfold terminate_memory_map. fold (the_map false s2). destruct (the_map false s) as [|d0 l] eqn:EM; [discriminate|]. rewrite <- EM in *.
  destruct (_ <? _); [injection G as <- <-; discriminate|]. injection G as <- <-. cbn [o_key] in K. injection K as <-.
  apply crc32_small_change in SC; try (now apply map_bytes_ok). destruct (N.eqb_spec (crc32 (map_bytes pads (the_map false s))) (crc32 (map_bytes pads (the_map false s2)))); [contradiction|reflexivity].
Qed.
Print Assumptions map_key_refused_partial.

(** In particular if one descriptor has another memory type. *)
Lemma entries_app : forall pads a b k, entries pads k (a ++ b) = entries pads k a ++ entries pads (k + length a) b.
Proof.
  intros pads a b. induction a as [|x a IH]; intros k; [cbn [app length]; now rewrite Nat.add_0_r|]. unfold entries. cbn [app length seq combine map concat].
  fold (entries pads (S k) (a ++ b)). fold (entries pads (S k) a). rewrite IH, app_assoc. replace (S k + length a)%nat with (k + S (length a))%nat by lia. reflexivity.
Qed.
Theorem map_key_notices_type : forall pads s n d v st out k s2 before after e e2, padding pads -> get_memory_map pads (s_als s) (s_g s) n true true d v = Ok (st, out) ->
  o_key out = Some k -> the_map false s = before ++ e :: after -> the_map false s2 = before ++ e2 :: after ->
  d_start e = d_start e2 -> d_pages e = d_pages e2 -> d_attr e = d_attr e2 -> d_type e < 2 ^ 32 -> d_type e2 < 2 ^ 32 -> d_type e <> d_type e2 ->
  terminate_memory_map pads (s_als s2) (s_g s2) k = Err InvalidParameter.
Proof.
  intros pads s n d v st out k s2 before after e e2 P G K E1 E2 S1 S2 S3 W1 W2 NE. eapply map_key_refused_partial; eauto. rewrite E1, E2.
  change (map_bytes pads) with (entries pads 0). rewrite !entries_app. cbn [plus]. set (j := length before).
  unfold entries at 2 4. cbn [length seq combine map concat fst snd]. fold (entries pads (S j) after). unfold descr_bytes. rewrite S1, S2, S3.
  exists (entries pads 0 before), (le_bytes 4 (d_type e)), (le_bytes 4 (d_type e2)). eexists. split; [rewrite <- !app_assoc; reflexivity|]. split; [rewrite <- !app_assoc; reflexivity|].
  split; [|split; [now rewrite !le_bytes_length|rewrite le_bytes_length; auto]]. intros X. apply NE. apply (f_equal le_val) in X. rewrite !le_val_bytes in X by assumption. exact X.
Qed.
Print Assumptions map_key_notices_type.

(** ** A concrete case *)

(** A check of [page_grid]. *)
Definition on_pages (g : gcd) : bool := forallb (fun b => (b_base b mod 4096 =? 0) && (b_len b mod 4096 =? 0)) (g_blocks g).
Lemma on_pages_grid : forall g, on_pages g = true -> page_grid g.
Proof.
  intros g H x y E. unfold on_pages in H. induction (g_blocks g) as [|b r IH]; [reflexivity|]. cbn [forallb] in H. apply andb_prop in H. destruct H as (B & H).
  apply andb_prop in B. destruct B as (B1 & B2). apply N.eqb_eq in B1, B2. cbn [state_at]. rewrite (IH H).
  assert (X : (b_base b <=? x) && (x <? b_end b) = (b_base b <=? y) && (y <? b_end b)); [|rewrite X; reflexivity].
  apply N.mod_divide in B1, B2; try discriminate. destruct B1 as (p & P), B2 as (q & Q). unfold b_end. rewrite P, Q, <- N.mul_add_distr_r.
  assert (T : forall a z, (a * 4096 <=? z) = (a <=? z / 4096)).
  { intros a z. apply eq_true_iff_eq. rewrite !N.leb_le. split; intros Z; [apply N.div_le_lower_bound; lia|]. pose proof (N.mul_div_le z 4096 ltac:(discriminate)). lia. }
  rewrite !(N.ltb_antisym _ x), !(N.ltb_antisym _ y), !T, E. reflexivity.
Qed.
Example demo_grid : page_grid (s_g d_end).
Proof. apply on_pages_grid. vm_compute. reflexivity. Qed.
(** The map of the history in Alloc/Demo.v: pool memory of type 4 (256 pages at 0x40F0000), its runs, memory of type 6. *)
Example demo_map : the_map false d_end =
  [Descr 7 0 80 8; Descr 4 0x50000 1 8; Descr 7 0x51000 1 8; Descr 4 0x52000 1 8; Descr 7 0x53000 16541 8; Descr 4 0x40F0000 256 8; Descr 6 0x41F0000 16 (2 ^ 63 + 8)].
Proof. vm_compute. reflexivity. Qed.
Example demo_holding : exists d, In d (the_map false d_end) /\ covers d 0x40F011A /\ d_type d = 4.
Proof.
  apply (holdings_reported _ _ _ _ false (HBuffer 4 0x40F0118 8) 0x40F011A demo_history demo_grid); [do 3 right; left; reflexivity|]. cbn [extent fst snd]. unfold in_range. lia.
Qed.
Definition zero_pads : nat -> list N := fun _ => [0; 0; 0; 0].
Lemma zero_padding : padding zero_pads.
Proof. intros i. split; [reflexivity|]. repeat constructor. Qed.
Example demo_service : exists out bytes, get_memory_map zero_pads (s_als d_end) (s_g d_end) (Some 280) true true true true = Ok (GSuccess, out) /\
  o_map out = Some bytes /\ length bytes = 280%nat /\ describes bytes 6 (Descr 6 0x41F0000 16 (2 ^ 63 + 8)).
Proof.
  destruct (get_memory_map_contract _ _ _ _ zero_pads 280 true true true true demo_history zero_padding) as (st & out & E & _ & _ & _ & C); [rewrite demo_map; discriminate|].
  rewrite demo_map in C. cbn [length] in C. change (280 <? 40 * N.of_nat 7) with false in C. cbv iota in C. destruct C as (-> & bytes & C1 & C2 & C3 & _).
  exists out, bytes. split; [exact E|]. split; [exact C1|]. split; [exact C2|]. apply C3. reflexivity.
Qed.
Example demo_key : exists out k, get_memory_map zero_pads (s_als d_end) (s_g d_end) (Some 280) true true true true = Ok (GSuccess, out) /\
  o_key out = Some k /\ terminate_memory_map zero_pads (s_als d_end) (s_g d_end) k = Ok tt.
Proof.
  destruct (get_memory_map_contract _ _ _ _ zero_pads 280 true true true true demo_history zero_padding) as (st & out & E & _ & _ & _ & C); [rewrite demo_map; discriminate|].
  rewrite demo_map in C. cbn [length] in C. change (280 <? 40 * N.of_nat 7) with false in C. cbv iota in C. destruct C as (-> & bytes & C1 & C2 & C3 & K).
  eexists out, _. split; [exact E|]. split; [exact K|]. eapply map_key_accepted; [exact E|exact K|reflexivity].
Qed.

(** ** What does not hold *)

(** Memory that is allocated, but not through one of the allocators, is reported as free: type 7. *)
Theorem allocated_memory_not_free_refuted : exists s L x st d, history false 40 s L /\ state_at (g_blocks (s_g s)) x = Some st /\ ms_alloc st = true /\
  In d (the_map false s) /\ covers d x /\ d_type d = 7.
Proof.
  exists d_end, d_ledger, 0x1000. eexists. exists (Descr 7 0 80 8). split; [exact demo_history|]. split; [vm_compute; reflexivity|]. split; [reflexivity|].
  split; [rewrite demo_map; left; reflexivity|]. split; [|reflexivity]. unfold covers, in_range. cbn [d_start d_pages]. lia.
Qed.
Print Assumptions allocated_memory_not_free_refuted.

(** A megabyte of memory added at an address off a page boundary is missing from the map altogether. *)
Definition odd_ops : list gcd_op := [OpAdd SystemMemory 0 0x4200000 CAPS; OpAdd SystemMemory 0x5000010 0x100000 CAPS].
Definition odd_g : gcd := Eval vm_compute in match gcd_run d_new odd_ops with Some g => g | None => d_new end.
Definition odd_start : sys := Sys odd_g (fun _ => Hdr 0 0 0 0) [].
Lemma odd_history : history false 40 odd_start [].
Proof.
  apply (h_start false 40 80 false odd_ops odd_g); [|discriminate]. split; [reflexivity|]. split; [repeat constructor; reflexivity|]. vm_compute. reflexivity.
Qed.
Theorem all_memory_reported_refuted : exists s L st, history false 40 s L /\
  (forall x, in_range 0x5000010 0x100000 x -> state_at (g_blocks (s_g s)) x = Some st) /\ reported s st 7 /\
  forall x d, in_range 0x5000010 0x100000 x -> In d (the_map false s) -> ~ covers d x.
Proof.
  exists odd_start, []. eexists. split; [exact odd_history|]. split.
  - intros x Hx. unfold in_range in Hx. cbn [s_g odd_start odd_g g_blocks]. cbn [state_at]. unfold b_end. cbn [b_base b_len b_st].
    repeat match goal with |- context [(?a <=? x) && (x <? ?b)] => destruct (N.leb_spec a x), (N.ltb_spec x b); cbn [andb]; try lia end. reflexivity.
  - split; [right; split; [intros a []|reflexivity]|]. intros x d Hx Hd Cx. assert (E : the_map false odd_start = [Descr 7 0 16896 8]) by (vm_compute; reflexivity).
    rewrite E in Hd. destruct Hd as [<-|[]]. unfold covers, in_range in *. cbn [d_start d_pages] in Cx. lia.
Qed.
Print Assumptions all_memory_reported_refuted.

(** The key covers bytes nobody has written: with the same map, the key can be refused because the padding of the
    vector that ExitBootServices builds holds something else than the padding of the vector GetMemoryMap built. *)
Theorem map_key_of_same_map_refuted : exists s L pads pads2 k, history false 40 s L /\ padding pads /\ padding pads2 /\
  (exists out, get_memory_map pads (s_als s) (s_g s) (Some 280) true true true true = Ok (GSuccess, out) /\ o_key out = Some k) /\
  terminate_memory_map pads2 (s_als s) (s_g s) k = Err InvalidParameter.
Proof.
  exists d_end, d_ledger, zero_pads, (fun _ => [1; 0; 0; 0]). eexists. split; [exact demo_history|]. split; [exact zero_padding|].
  split; [intros i; split; [reflexivity|repeat constructor]|]. split; [eexists; split; [vm_compute; reflexivity|reflexivity]|]. vm_compute. reflexivity.
Qed.
Print Assumptions map_key_of_same_map_refuted.

(** A stale key can be accepted: the checksum of the map with 4 pages at 0x3FFD000 is that of the map with 33 pages at
    0x35E5000 instead. *)
Definition first_calls : list sop := [SCreate 4 1 4096; SPages 4 (AtAddress 0x3FFD000) 4 0].
Definition then_calls : list sop := [SFreePages 0x3FFD000 4; SPages 4 (AtAddress 0x35E5000) 33 0].
Theorem stale_map_key_refused_refuted : exists s L s2 L2 k, history false 40 s L /\ history false 40 s2 L2 /\
  (exists out, get_memory_map zero_pads (s_als s) (s_g s) (Some 120) true true true true = Ok (GSuccess, out) /\ o_key out = Some k) /\
  check false s L then_calls = Some (s2, L2) /\ the_map false s2 <> the_map false s /\
  terminate_memory_map zero_pads (s_als s2) (s_g s2) k = Ok tt.
Proof.
  set (r := check false Demo.d_start [] first_calls). set (s := final r). set (L := [HRun 4 0x3FFD000 0x4000]).
  assert (H : history false 40 s L) by (apply final_history; [exact d_history|vm_compute; reflexivity]).
  set (r2 := check false s L then_calls). set (s2 := final r2). set (L2 := [HRun 4 0x35E5000 0x21000]).
  assert (H2 : history false 40 s2 L2) by (apply final_history; [exact H|vm_compute; reflexivity]).
  exists s, L, s2, L2. eexists. split; [exact H|]. split; [exact H2|]. split; [eexists; split; [vm_compute; reflexivity|reflexivity]|].
  split; [|split; [vm_compute; discriminate|vm_compute; reflexivity]].
  assert (E : option_map snd r2 = Some L2) by (vm_compute; reflexivity). unfold s2, final. fold r2. destruct r2 as [[a b]|]; [|discriminate]. injection E as ->. reflexivity.
Qed.
Print Assumptions stale_map_key_refused_refuted.
