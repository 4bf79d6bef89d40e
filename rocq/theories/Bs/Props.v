(** The wrappers of boot services: what a driver relies on. *)
From Verif Require Import Base.Prelude Bs.Model Bs.Spec.
From Coq Require Import Lia ZifyBool ZifyNat ZifyN Permutation.
Local Open Scope N_scope.

Lemma remove1_head : forall p l, remove1 p (p :: l) = l.
Proof. intros. cbn [remove1]. rewrite N.eqb_refl. reflexivity. Qed.
Lemma free_head : forall p l wi, free_pool (World (p :: l) wi) p = World l wi.
Proof. intros. unfold free_pool. cbn [live existsb wild]. rewrite N.eqb_refl. cbn [orb]. rewrite remove1_head. reflexivity. Qed.
Lemma free_absent : forall p w, ~ In p (live w) -> free_pool w p = World (live w) (p :: wild w).
Proof.
  intros p w H. unfold free_pool. destruct (existsb (N.eqb p) (live w)) eqn:E; [|reflexivity]. apply existsb_exists in E. destruct E as (x & I & X).
  apply N.eqb_eq in X. subst. contradiction.
Qed.
Lemma bts_error : is_error BUFFER_TOO_SMALL = true. Proof. reflexivity. Qed.

(** ** Boxes *)

(** C85: a box owns one block: dropping it frees that block and nothing else; a leaked one stays. *)
Theorem c85_box : forall w a b w', box_new w a = (Ok b, w') ->
  live w' = b_ptr b :: live w /\ drop_box w' b = w /\ leak w' b = (b_ptr b, w').
Proof.
  intros w a b w' H. unfold box_new, allocate_pool in H. destruct (is_error (fst a)); [discriminate|].
  assert (B : b = Bbox (snd a) 1) by congruence. assert (W : w' = World (snd a :: live w) (wild w)) by congruence. subst b w'. cbn [b_ptr live]. split; [reflexivity|].
  unfold drop_box. cbn [b_ptr]. rewrite free_head. destruct w. split; reflexivity.
Qed.
(** Not so: a box turned into a pointer.  The block has been freed when the caller gets it, and freeing it again is an error. *)
Theorem c85_into_raw_refuted : forall w a b w', box_new w a = (Ok b, w') -> ~ In (b_ptr b) (live w) ->
  into_raw w' b = (b_ptr b, w) /\ wild (free_pool (snd (into_raw w' b)) (b_ptr b)) = b_ptr b :: wild w.
Proof.
  intros w a b w' H F. destruct (c85_box w a b w' H) as (_ & D & _). unfold into_raw. rewrite D. cbn [snd]. split; [reflexivity|]. rewrite free_absent by exact F. reflexivity.
Qed.
(** Lists the firmware allocates are passed on whole; the block is freed with the box, and on a failure nothing is owned. *)
Theorem c85_lists : forall w s p n,
  (is_error s = false -> exists w', take_list w (s, p, n) = (Ok (Bbox p n), w') /\ live w' = p :: live w /\ drop_box w' (Bbox p n) = w)
  /\ (is_error s = true -> take_list w (s, p, n) = (Err s, w)).
Proof.
  intros w s p n. unfold take_list. split; intros E; rewrite E; [|reflexivity]. eexists. split; [reflexivity|]. split; [reflexivity|].
  unfold drop_box. cbn [b_ptr]. rewrite free_head. destruct w. reflexivity.
Qed.

(** ** Handles *)

(** C85: finding handles gives all of them, if there are not more at the second call than at the first; dropping the list frees what it took. *)
Theorem c85_handles_partial : forall w k1 k2 al p, 0 < k1 -> 0 < k2 -> k2 <= k1 -> al (8 * k1) = (0, p) ->
  exists w', locate_handle w (fun c => uefi_handles (if c then k2 else k1)) al = (Ok (Bbox p k2), w') /\ live w' = p :: live w /\ drop_box w' (Bbox p k2) = w.
Proof.
  intros w k1 k2 al p K1 K2 L A. unfold locate_handle, uefi_handles. destruct (k1 =? 0) eqn:E1; [lia|]. destruct (k2 =? 0) eqn:E2; [lia|].
  destruct (0 <? 8 * k1) eqn:E3; [|lia]. cbn [snd]. rewrite A. unfold allocate_pool. cbn [fst snd]. change (is_error 0) with false. cbv iota.
  destruct (8 * k1 <? 8 * k2) eqn:E4; [lia|]. cbn [fst snd]. change (is_error 0) with false. cbv iota. rewrite N.mul_comm, N.div_mul by discriminate.
  eexists. split; [reflexivity|]. split; [reflexivity|]. unfold drop_box. cbn [b_ptr]. rewrite free_head. destruct w. reflexivity.
Qed.
(** C85: a list is only given when the firmware gave it; without memory nothing is owned. *)
Theorem c85_handles_failure : forall w f al r w', locate_handle w f al = (r, w') ->
  (is_error (fst (al (snd (f false 0)))) = true -> r = Err (fst (al (snd (f false 0)))) /\ w' = w)
  /\ (forall b, r = Ok b -> is_error (fst (f true (snd (f false 0)))) = false /\ b_len b = snd (f true (snd (f false 0))) / 8).
Proof.
  intros w f al r w' H. unfold locate_handle, allocate_pool in H. destruct (is_error (fst (al (snd (f false 0))))) eqn:E.
  - split; [intros _; split; congruence | intros b B; congruence].
  - split; [discriminate|]. intros b B. destruct (is_error (fst (f true (snd (f false 0))))) eqn:E2; [congruence|]. split; [reflexivity|].
    assert (b = Bbox (snd (al (snd (f false 0)))) (snd (f true (snd (f false 0))) / 8)) by congruence. subst b. reflexivity.
Qed.
(** Not so: that a failure owns nothing.  If there are none, or more than before, the block is never freed. *)
Theorem c85_handles_leak_refuted : forall w k1 k2 al p, al (8 * k1) = (0, p) -> k2 = 0 \/ k1 < k2 ->
  exists s, locate_handle w (fun c => uefi_handles (if c then k2 else k1)) al = (Err s, World (p :: live w) (wild w)).
Proof.
  intros w k1 k2 al p A H. unfold locate_handle.
  assert (S : snd (uefi_handles k1 0) = 8 * k1).
  { unfold uefi_handles. destruct (k1 =? 0) eqn:E1; [assert (k1 = 0) by lia; subst; reflexivity|]. destruct (0 <? 8 * k1); reflexivity. }
  rewrite S, A. unfold allocate_pool. cbn [fst snd]. change (is_error 0) with false. cbv iota. unfold uefi_handles at 1. destruct (k2 =? 0) eqn:E2.
  - cbn [fst]. eexists. unfold uefi_handles. rewrite E2. reflexivity.
  - destruct (8 * k1 <? 8 * k2) eqn:E4; [|lia]. eexists. unfold uefi_handles. rewrite E2, E4. reflexivity.
Qed.

(** ** The memory map *)

(** C85: the memory map is read into a block with room for it, with its key and version, if the allocation made it grow by at most 0x400 bytes. *)
Theorem c85_map_read_partial : forall w k1 k2 ds key1 key2 ver al p, 0 < k1 -> 0 < ds -> k2 * ds <= k1 * ds + 0x400 -> al (k1 * ds + 0x400) = (0, p) ->
  exists m w', get_memory_map w (fun c => uefi_map (if c then k2 else k1) ds (if c then key2 else key1) ver) al = (Ok m, w')
    /\ b_ptr (mm_box m) = p /\ mm_key m = key2 /\ mm_version m = ver /\ live w' = p :: live w /\ drop_box w' (mm_box m) = w.
Proof.
  intros w k1 k2 ds key1 key2 ver al p K D L A. unfold get_memory_map, uefi_map. destruct (0 <? k1 * ds) eqn:E; [|lia]. cbn [m_status m_size]. rewrite N.eqb_refl, A.
  unfold allocate_pool. cbn [fst snd]. change (is_error 0) with false. cbv iota. destruct (k1 * ds + 0x400 <? k2 * ds) eqn:E2; [lia|].
  cbn [m_status m_size m_key m_dsize m_version]. change (0 =? BUFFER_TOO_SMALL) with false. change (is_error 0) with false. cbv iota.
  eexists. eexists. split; [reflexivity|]. repeat split. cbn [mm_box]. unfold drop_box. cbn [b_ptr]. rewrite free_head. destruct w. reflexivity.
Qed.
(** Not so: that it has as many entries as the firmware gave.  The number is the size of a descriptor, whatever the map … *)
Theorem c85_map_count_refuted : forall w k1 k2 ds key1 key2 ver al m w',
  get_memory_map w (fun c => uefi_map (if c then k2 else k1) ds (if c then key2 else key1) ver) al = (Ok m, w') -> b_len (mm_box m) = ds.
Proof.
  intros w k1 k2 ds key1 key2 ver al m w' H. unfold get_memory_map in H. destruct (allocate_pool w _) as [[p| |] w1]; try discriminate.
  destruct (m_status _ =? BUFFER_TOO_SMALL) in H; [discriminate|]. destruct (is_error _) in H; [discriminate|].
  assert (b_len (mm_box m) = m_dsize (uefi_map k2 ds key2 ver (if m_status (uefi_map k1 ds key1 ver 0) =? BUFFER_TOO_SMALL then m_size (uefi_map k1 ds key1 ver 0) + 0x400 else m_size (uefi_map k1 ds key1 ver 0)))).
  { match type of H with (Ok ?x, _) = _ => assert (M : m = x) by congruence; rewrite M; reflexivity end. }
  rewrite H0. unfold uefi_map. destruct (_ <? k2 * ds); reflexivity.
Qed.
(** … so a short map is followed by what lies behind the block: with descriptors of 48 bytes and up to 18 of them, entries reach past its end. *)
Theorem c85_map_overrun_refuted : forall w k key1 key2 ver al m w', 0 < k -> k <= 18 ->
  get_memory_map w (fun c => uefi_map k 48 (if c then key2 else key1) ver) al = (Ok m, w') -> k * 48 + 0x400 < b_len (mm_box m) * DESCRIPTOR.
Proof.
  intros w k key1 key2 ver al m w' K L H. rewrite (c85_map_count_refuted w k k 48 key1 key2 ver al m w').
  - unfold DESCRIPTOR. lia.
  - rewrite <- H. unfold get_memory_map. reflexivity.
Qed.
(** Not so: that a failure owns nothing.  If the map has grown more, its block is never freed. *)
Theorem c85_map_leak_refuted : forall w k1 k2 ds key1 key2 ver al p, 0 < k1 -> 0 < ds -> k1 * ds + 0x400 < k2 * ds -> al (k1 * ds + 0x400) = (0, p) ->
  get_memory_map w (fun c => uefi_map (if c then k2 else k1) ds (if c then key2 else key1) ver) al
  = (Err (BUFFER_TOO_SMALL, k2 * ds), World (p :: live w) (wild w)).
Proof.
  intros w k1 k2 ds key1 key2 ver al p K D L A. unfold get_memory_map, uefi_map. destruct (0 <? k1 * ds) eqn:E; [|lia]. cbn [m_status m_size]. rewrite N.eqb_refl, A.
  unfold allocate_pool. cbn [fst snd]. change (is_error 0) with false. cbv iota. destruct (k1 * ds + 0x400 <? k2 * ds) eqn:E2; [|lia].
  cbn [m_status m_size]. rewrite N.eqb_refl. reflexivity.
Qed.

(** ** Images, drivers, pages, interfaces of a type *)

(** C85: an image that returns without an error is a success. *)
Theorem c85_start_ok : forall w s data var junk, (exists w', start_image w s data var junk = (Ok tt, w')) <-> is_error s = false.
Proof. intros. unfold start_image. destruct (is_error s); split; intros H; try discriminate; [destruct H; discriminate | reflexivity | eexists; reflexivity]. Qed.
(** Not so: its exit data after an error.  What is handed out is a variable of the wrapper, not the data; dropping it frees an address that is no block
    of the pool, and the data stays. *)
Theorem c85_exit_data_refuted : forall w s p n var junk, is_error s = true -> var <> 0 -> ~ In var (p :: live w) ->
  exists w', start_image w s (Some (p, n)) var junk = (Err (s, Some (Bbox var n)), w')
    /\ live (drop_box w' (Bbox var n)) = p :: live w /\ wild (drop_box w' (Bbox var n)) = var :: wild w.
Proof.
  intros w s p n var junk E V F. unfold start_image. rewrite E. destruct (var =? 0) eqn:V0; [lia|]. cbn [negb]. eexists. split; [reflexivity|].
  unfold drop_box. cbn [b_ptr]. rewrite free_absent by exact F. split; reflexivity.
Qed.
(** … and without any data there is a box too, of whatever size. *)
Theorem c85_no_exit_data_refuted : forall w s var junk, is_error s = true -> var <> 0 ->
  start_image w s None var junk = (Err (s, Some (Bbox var junk)), w).
Proof. intros w s var junk E V. unfold start_image. rewrite E. destruct (var =? 0) eqn:V0; [lia|]. reflexivity. Qed.
(** C85: the firmware is given the drivers asked for, whatever is in memory after the list; no list exactly if there are none. *)
Theorem c85_drivers : forall hs, ~ In 0 hs -> match driver_list hs with None => hs = [] | Some l => hs <> [] /\ forall rest, until_null (l ++ rest) = hs end.
Proof.
  intros hs H. destruct hs as [|h hs]; [reflexivity|]. unfold driver_list. split; [discriminate|]. intros rest. remember (h :: hs) as l eqn:E. clear E h hs. induction l as [|h l IH]; [reflexivity|].
  cbn [app until_null]. destruct (h =? 0) eqn:Z; [exfalso; apply H; left; lia|]. rewrite IH; [reflexivity|]. intros I. apply H. right. exact I.
Qed.
(** C85: pages are asked for as the caller said; the address is the firmware's. *)
Theorem c85_pages : forall f t, allocate_pages f t =
  let r := match t with AnyPage => f 0 0 | MaxAddress a => f 1 a | Address a => f 2 a end in
  if 2 ^ 63 <=? fst r then Err (fst r) else Ok (snd r).
Proof. intros f []; reflexivity. Qed.
(** C85: an interface of a type is given only if the firmware has it and it fits: not null for a type with a size, null for one without. *)
Theorem c85_typed : forall dbg size r,
  (forall p, typed_protocol dbg size r = Ok (Some p) <-> is_error (fst r) = false /\ snd r = p /\ p <> 0 /\ 0 < size)
  /\ (typed_protocol dbg size r = Ok None <-> is_error (fst r) = false /\ snd r = 0 /\ size = 0)
  /\ (is_error (fst r) = true -> typed_protocol dbg size r = Err (fst r))
  /\ (typed_protocol dbg size r = Panic -> dbg = true).
Proof.
  intros dbg size [s p]. unfold typed_protocol. cbn [fst snd]. destruct (is_error s).
  - split; [intros q; split; [discriminate | intros (X & _); discriminate]|]. split; [split; [discriminate | intros (X & _); discriminate]|]. split; [reflexivity | discriminate].
  - destruct (p =? 0) eqn:P; cbn [negb].
    + destruct (0 <? size) eqn:Z.
      * destruct dbg; (split; [intros q; split; [discriminate | intros (_ & X & Y & _); lia]|]; split; [split; [discriminate | intros (_ & _ & X); lia]|]; split; [discriminate | try reflexivity; discriminate]).
      * split; [intros q; split; [discriminate | intros (_ & _ & _ & X); lia]|]. split; [split; [intros _; repeat split; lia | reflexivity]|]. split; discriminate.
    + destruct (size =? 0) eqn:Z.
      * destruct dbg; (split; [intros q; split; [discriminate | intros (_ & _ & _ & X); lia]|]; split; [split; [discriminate | intros (_ & X & _); lia]|]; split; [discriminate | try reflexivity; discriminate]).
      * split; [intros q; split; [intros X; assert (p = q) by congruence; repeat split; lia | intros (_ & X & _ & _); rewrite X; reflexivity]|].
        split; [split; [discriminate | intros (_ & X & _); lia]|]. split; discriminate.
Qed.

(** ** Interfaces *)

Lemma remove1_perm : forall p l, existsb (N.eqb p) l = true -> Permutation l (p :: remove1 p l).
Proof.
  intros p l. induction l as [|x l IH]; cbn [existsb remove1]; intros H; [discriminate|]. destruct (x =? p) eqn:E.
  - apply N.eqb_eq in E. subst. reflexivity.
  - rewrite N.eqb_sym, E in H. cbn [orb] in H. etransitivity; [apply perm_skip, IH, H|]. apply perm_swap.
Qed.
(** C85: after any history of interfaces installed and uninstalled each value is held by the caller, installed, or destroyed after a failure: none
    twice, and none lost. *)
Theorem c85_interfaces : forall ops l all l', accounted l all -> run_i l ops = Some l' -> accounted l' all /\ lost l' = lost l.
Proof.
  intros ops. induction ops as [|o ops IH]; intros l all l' A R; cbn [run_i] in R.
  - assert (l = l') by congruence. subst. split; [exact A | reflexivity].
  - destruct o as [p ok | p ok].
    + destruct (existsb (N.eqb p) (held l)) eqn:H; [|discriminate]. pose proof (remove1_perm p _ H) as P.
      assert (X : accounted (install l false p ok) all /\ lost (install l false p ok) = lost l).
      { unfold accounted in *. split; [|destruct ok; reflexivity]. rewrite <- A. destruct ok; cbn [install held installed destroyed].
        - rewrite P at 2. cbn [app]. symmetry. apply Permutation_middle.
        - rewrite P at 2. cbn [app]. rewrite !app_assoc. symmetry. apply Permutation_middle. }
      destruct (IH _ all l' (proj1 X) R) as [I1 I2]. split; [exact I1 | rewrite I2; apply X].
    + assert (X : accounted (uninstall l p ok) all /\ lost (uninstall l p ok) = lost l).
      { unfold uninstall. destruct (ok && existsb (N.eqb p) (installed l)) eqn:E; [|split; [exact A | reflexivity]]. split; [|reflexivity].
        unfold accounted in *. rewrite <- A. cbn [held installed destroyed]. apply Bool.andb_true_iff in E. destruct E as [_ E]. pose proof (remove1_perm p _ E) as P.
        rewrite P at 2. cbn [app]. apply Permutation_middle. }
      destruct (IH _ all l' (proj1 X) R) as [I1 I2]. split; [exact I1 | rewrite I2; apply X].
Qed.
(** C85: a successful exchange gives the old value back and installs the new one. *)
Theorem c85_exchange_partial : forall l old new all, accounted l all -> In new (held l) -> In old (installed l) ->
  accounted (reinstall l old new true) all /\ In old (held (reinstall l old new true)) /\ In new (installed (reinstall l old new true)) /\ lost (reinstall l old new true) = lost l.
Proof.
  intros l old new all A HN HO. assert (EN : existsb (N.eqb new) (held l) = true) by (apply existsb_exists; exists new; split; [exact HN | apply N.eqb_refl]).
  assert (EO : existsb (N.eqb old) (installed l) = true) by (apply existsb_exists; exists old; split; [exact HO | apply N.eqb_refl]).
  unfold reinstall. rewrite EO. cbn [andb held installed destroyed lost]. split; [|repeat split; left; reflexivity]. unfold accounted in *. rewrite <- A.
  cbn [held installed destroyed app]. pose proof (remove1_perm _ _ EN) as P1. pose proof (remove1_perm _ _ EO) as P2. rewrite P1 at 2. rewrite P2 at 2. cbn [app].
  rewrite <- !Permutation_middle. apply perm_swap.
Qed.
(** Not so: an exchange the firmware refuses.  The new value is neither given back nor destroyed. *)
Theorem c85_exchange_refuted : forall l old new, lost (reinstall l old new false) = new :: lost l /\ held (reinstall l old new false) = remove1 new (held l)
  /\ destroyed (reinstall l old new false) = destroyed l /\ installed (reinstall l old new false) = installed l.
Proof. intros. repeat split. Qed.
(** Not so: values of size zero.  One is destroyed when it is installed, though it is given back later; after a failure it is destroyed twice. *)
Theorem c85_zero_size_refuted : forall l p,
  destroyed (install l true p true) = p :: destroyed l
  /\ (let l' := uninstall (install l true p true) p true in In p (held l') /\ In p (destroyed l'))
  /\ destroyed (install l true p false) = p :: p :: destroyed l.
Proof.
  intros l p. split; [reflexivity|]. split; [|reflexivity]. cbv zeta. unfold uninstall. cbn [install installed existsb]. rewrite N.eqb_refl. cbn [orb andb held destroyed].
  split; left; reflexivity.
Qed.

(** ** Cases *)

Example demo_handles : locate_handle (World [0x10] []) (fun _ => uefi_handles 3) (fun n => (0, 0x1000 + n)) = (Ok (Bbox 0x1018 3), World [0x1018; 0x10] []).
Proof. vm_compute. reflexivity. Qed.
Example demo_no_handles : locate_handle (World [0x10] []) (fun _ => uefi_handles 0) (fun n => (0, 0x1000 + n)) = (Err NOT_FOUND, World [0x1000; 0x10] []).
Proof. vm_compute. reflexivity. Qed.
Example demo_map : exists m w, get_memory_map (World [] []) (fun _ => uefi_map 10 48 7 1) (fun n => (0, 0x1000)) = (Ok m, w) /\ b_len (mm_box m) = 48.
Proof. eexists. eexists. split; vm_compute; reflexivity. Qed.
Example demo_interfaces : run_i (Ledger [1; 2; 3] [] [] []) [Install 1 true; Install 2 false; Uninstall 1 false; Install 3 true; Uninstall 1 true; Uninstall 1 true]
  = Some (Ledger [1] [3] [2] []).
Proof. vm_compute. reflexivity. Qed.
Example demo_box : exists b w, box_new (World [5] []) (0, 9) = (Ok b, w) /\ ~ In (b_ptr b) [5].
Proof. eexists. eexists. split; [vm_compute; reflexivity|]. cbn. lia. Qed.

Print Assumptions c85_box.
Print Assumptions c85_into_raw_refuted.
Print Assumptions c85_lists.
Print Assumptions c85_handles_partial.
Print Assumptions c85_handles_failure.
Print Assumptions c85_handles_leak_refuted.
Print Assumptions c85_map_read_partial.
Print Assumptions c85_map_count_refuted.
Print Assumptions c85_map_overrun_refuted.
Print Assumptions c85_map_leak_refuted.
Print Assumptions c85_start_ok.
Print Assumptions c85_exit_data_refuted.
Print Assumptions c85_no_exit_data_refuted.
Print Assumptions c85_drivers.
Print Assumptions c85_pages.
Print Assumptions c85_typed.
Print Assumptions c85_interfaces.
Print Assumptions c85_exchange_partial.
Print Assumptions c85_exchange_refuted.
Print Assumptions c85_zero_size_refuted.
