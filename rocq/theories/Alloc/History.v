(** Freeing, the other users of the memory map, and whole histories. *)
From Coq Require Import Permutation.
From Verif Require Import Base.Prelude Align.Model Align.Proofs Align.Main Gcd.Blocks Gcd.Model Gcd.Spec Gcd.BlockProofs Gcd.Proofs Gcd.AllocProofs Gcd.Main Gcd.Hist Gcd.Complete Gcd.Props Alloc.Model Alloc.Spec Alloc.Pool Alloc.Pages Alloc.Calls Alloc.System.
Local Open Scope N_scope.

(** ** FreePool *)
Lemma free_pool_skips : forall dbg front l m b p, usub (E := efi_error) dbg b HEADER = Ok p ->
  hd_sig (m p) = POOL_SIG -> (forall a, In a l -> al_type a <> hd_type (m p)) ->
  forall t, try_free_pool dbg front (l ++ t) m b = (let '(r, t', m') := try_free_pool dbg front t m b in (r, l ++ t', m')).
Proof.
  induction l as [|a l IH]; intros m b p U S H t; cbn [app try_free_pool]; [destruct (try_free_pool dbg front t m b) as [[]]; reflexivity|].
  unfold free_pool at 1. rewrite U, S. rewrite N.eqb_refl. cbn [negb].
  destruct (N.eqb_spec (hd_type (m p)) (al_type a)) as [E|_]; [exfalso; apply (H a); [left; reflexivity|congruence]|]. cbn [negb].
  rewrite (IH m b p U S) by (intros; apply H; right; assumption). destruct (try_free_pool dbg front t m b) as [[]]. reflexivity.
Qed.

Lemma header_addr : forall dbg b, word b -> usub (E := efi_error) dbg b HEADER = Panic \/
  usub (E := efi_error) dbg b HEADER = Ok ((b + (2 ^ 64 - 24)) mod 2 ^ 64).
Proof.
  intros dbg b W. unfold word in W. unfold usub, HEADER. destruct (N.leb_spec 24 b).
  - right. f_equal. change (2 ^ 64) with two64. replace (b + (two64 - 24)) with (b - 24 + 1 * two64) by (unfold two64 in *; lia).
    rewrite N.mod_add by discriminate. rewrite N.mod_small; lia.
  - destruct dbg; [left; reflexivity|right]. do 2 f_equal. change (2 ^ 64) with two64. unfold two64. lia.
Qed.

Lemma free_pool_rejects : forall dbg front l m b, word b ->
  (hd_sig (m ((b + (2 ^ 64 - 24)) mod 2 ^ 64)) <> POOL_SIG \/ forall a, In a l -> al_type a <> hd_type (m ((b + (2 ^ 64 - 24)) mod 2 ^ 64))) ->
  (exists l' m', try_free_pool dbg front l m b = (Panic, l', m') /\ dbg = true) \/ try_free_pool dbg front l m b = (Err InvalidParameter, l, m).
Proof.
  intros dbg front l m b W. pose proof (header_addr dbg b W) as U. set (p := (b + (2 ^ 64 - 24)) mod 2 ^ 64) in *. clearbody p.
  induction l as [|a l IH]; intros H; cbn [try_free_pool]; [right; reflexivity|]. unfold free_pool at 1 2.
  destruct U as [U|U].
  { left. unfold usub in *. rewrite U. assert (dbg = true). { destruct (HEADER <=? b); [discriminate|]. destruct dbg; [reflexivity|discriminate]. } eauto. }
  rewrite U. destruct (N.eqb_spec (hd_sig (m p)) POOL_SIG) as [E|NE]; cbn [negb].
  - destruct H as [H|H]; [contradiction|]. destruct (N.eqb_spec (hd_type (m p)) (al_type a)) as [E2|_]; [exfalso; apply (H a); [left; reflexivity|congruence]|].
    cbn [negb]. destruct IH as [(l' & m' & I1 & I2)|I1]; [right; intros; apply H; right; assumption| |]; rewrite I1; [left; eauto|right; reflexivity].
  - destruct dbg; cbn [debug_fail]; [left; eauto|]. destruct IH as [(l' & m' & I1 & I2)|I1]; [left; exact NE| |]; rewrite I1; [left; eauto|right; reflexivity].
Qed.

Lemma buffer_block : forall ty b size L, In (HBuffer ty b size) L -> In (b - 24, 24 + size, 8) (blocks_of ty L).
Proof. intros. eapply in_blocks; [exact H|]. cbn [block_of]. now rewrite N.eqb_refl. Qed.

Lemma holding_alloc : forall dbg bits s L h, sinv dbg bits s L -> In h L ->
  exists pre a post, s_als s = pre ++ a :: post /\ al_type a = type_of h /\ (forall a2, In a2 (pre ++ post) -> al_type a2 <> type_of h).
Proof.
  intros dbg bits s L h I H. destruct (i_type _ _ _ _ I h H) as (a & Ha & E). apply in_split in Ha. destruct Ha as (pre & post & Ha).
  exists pre, a, post. split; [exact Ha|]. split; [exact E|]. intros a2 H2. rewrite <- E. eapply NoDup_mid; [|exact H2]. rewrite <- Ha.
  exact (i_types _ _ _ _ I).
Qed.

Lemma dropped_buffer : forall dbg bits s L ty b size, sinv dbg bits s L -> In (HBuffer ty b size) L ->
  Permutation L (HBuffer ty b size :: drop_first (fun h => match h with HBuffer _ q _ => q =? b | _ => false end) L).
Proof.
  intros dbg bits s L ty b size I H. destruct (drop_first_perm _ (fun h => match h with HBuffer _ q _ => q =? b | _ => false end) L _ H) as (y & Y1 & Y2 & Y3).
  { cbv beta. apply N.eqb_refl. }
  destruct y as [| t q sz |]; try discriminate. apply N.eqb_eq in Y1. subst q.
  pose proof (i_header _ _ _ _ I _ H) as H1. pose proof (i_header _ _ _ _ I _ Y2) as H2. cbn [header_ok] in H1, H2. rewrite H1 in H2.
  pose proof (f_equal hd_type H2) as E1. pose proof (f_equal hd_size H2) as E2. cbn [hd_type hd_size] in E1, E2.
  assert (E3 : sz = size) by lia. subst. exact Y3.
Qed.

(** Freeing a live buffer: accepted, and exactly that holding is gone. *)
Lemma free_own_buffer : forall dbg bits s L ty b size front, sinv dbg bits s L -> In (HBuffer ty b size) L ->
  exists s', sys_step dbg s (SFreePool b front) = (Done, s') /\ sinv dbg bits s' (record s (SFreePool b front) Done L).
Proof.
  intros dbg bits s L ty b size front I H. destruct (holding_alloc _ _ _ _ _ I H) as (pre & a & post & EL & ET & NT). cbn [type_of] in *.
  destruct s as [g m l]. cbn [s_als] in EL. subst l.
  assert (Ha : In a (pre ++ a :: post)) by (apply in_mid; auto).
  pose proof (i_runs _ _ _ _ I a Ha) as RA. pose proof (i_pool _ _ _ _ I a Ha) as PA. cbn [s_g] in RA.
  pose proof (buffer_block _ _ _ _ H) as BB. rewrite <- ET in BB.
  destruct (block_loc _ _ _ _ _ _ _ _ RA PA BB) as (B1 & _).
  assert (U : usub (E := efi_error) dbg b HEADER = Ok (b - 24)).
  { unfold usub, HEADER. destruct (N.leb_spec 24 b); [reflexivity|lia]. }
  pose proof (i_header _ _ _ _ I _ H) as HH. cbn [header_ok s_m] in HH.
  pose proof (dropped_buffer _ _ _ _ _ _ _ I H) as DP. cbn [record]. set (L' := drop_first _ L) in *.
  assert (PB : pinv a ((b - 24, 24 + size, 8) :: blocks_of (al_type a) L')).
  { eapply pinv_perm; [|exact PA]. rewrite (blocks_perm _ _ _ DP). unfold blocks_of. cbn [flat_map block_of]. rewrite ET, N.eqb_refl. reflexivity. }
  destruct (dealloc_ok _ _ _ _ _ PB (regions_ok _ _ _ _ RA)) as (a1 & D1 & D2 & D3 & D4).
  assert (EX : sys_step dbg (Sys g m (pre ++ a :: post)) (SFreePool b front) =
     (Done, Sys g (put_header m (b - 24) (after_free front a (m (b - 24)))) (pre ++ a1 :: post))).
  { cbn [sys_step s_g s_m s_als]. unfold core_free_pool. destruct (N.eqb_spec b 0); [lia|].
    rewrite (free_pool_skips dbg front pre m b (b - 24) U); [|now rewrite HH|].
    - cbn [try_free_pool]. unfold free_pool. rewrite U, HH. cbn [hd_sig hd_type hd_size hd_align]. rewrite N.eqb_refl. cbn [negb].
      rewrite ET, N.eqb_refl. cbn [negb]. destruct (N.eqb_spec (b - 24) 0); [lia|]. rewrite D1. reflexivity.
    - intros a2 Ha2. rewrite HH. cbn [hd_type]. apply NT. apply in_or_app. auto. }
  eexists. split; [exact EX|]. destruct (fsb_same_pages _ _ D4) as (S1 & S2 & S3 & _).
  eapply sinv_update with (L := L); [exact I|exact (i_reach _ _ _ _ I)|exact S2| |exact D2| | | |].
  - unfold runs. rewrite (proj1 S2), D3. eapply rinv_same; [exact S1|exact S3|]. eapply rinv_perm; [|exact RA]. apply Permutation_app_head.
    rewrite (held_perm _ _ _ DP). now rewrite held_cons_other.
  - intros. apply keeps_refl.
  - intros t Ht. rewrite (held_perm _ _ _ DP), (blocks_perm _ _ _ DP). destruct (cons_other (HBuffer ty b size) L' t) as (C1 & C2); [cbn; congruence|].
    split; apply Permutation_sym; assumption.
  - intros h Hh. left. eapply drop_first_in; exact Hh.
  - intros h Hh. assert (Hh' : In h L) by (eapply drop_first_in; exact Hh).
    pose proof (i_header _ _ _ _ I h Hh') as HO. cbn [s_m] in HO. destruct h as [| t q sz |]; cbn [header_ok] in *; auto.
    unfold put_header. destruct (N.eqb_spec (q - 24) (b - 24)) as [EQ|]; [|exact HO]. exfalso.
    assert (BQ : In (q - 24, 24 + sz, 8) (blocks_of t L')) by (now apply buffer_block).
    rewrite EQ, HH in HO. pose proof (f_equal hd_type HO) as E1. cbn [hd_type] in E1. subst t.
    rewrite <- ET in BQ. pose proof (new_block_apart _ _ _ _ PB (regions_ok _ _ _ _ RA) BQ) as A. apply apart_neq in A.
    + rewrite !chunk_fst in A. congruence.
    + pose proof (chunk_pos (b - 24, 24 + size, 8)). lia.
    + pose proof (chunk_pos (q - 24, 24 + sz, 8)). lia.
Qed.

Lemma step_freepool : forall dbg bits s L b front out s',
  sinv dbg bits s L -> sys_step dbg s (SFreePool b front) = (out, s') -> out <> Crashed ->
  polite s L (SFreePool b front) out s' -> sinv dbg bits s' (record s (SFreePool b front) out L).
Proof.
  intros dbg bits s L b front out s' I E NC [(ty & size & H)|(W & H)].
  - destruct (free_own_buffer _ _ _ _ _ _ _ front I H) as (s2 & E2 & I2). rewrite E in E2. inversion E2; subst. exact I2.
  - destruct s as [g m l]. cbn [s_m s_als] in *. cbn [sys_step s_g s_m s_als] in E. unfold core_free_pool in E. destruct (b =? 0).
    { inversion E; subst. exact I. }
    destruct (free_pool_rejects dbg front l m b W H) as [(l' & m' & F & _)|F]; rewrite F in E; inversion E; subst; [contradiction|]. exact I.
Qed.

(** ** FreePages *)
Lemma gran_of : forall bits g a R, rinv bits g a R -> exists q, al_gran a = 2 ^ q /\ 12 <= q /\ q < 64.
Proof. intros bits g a R (I & _). exact (r_gran _ _ _ _ I). Qed.

Lemma free_pages_skip : forall dbg bits g base pages f k l, reach dbg bits g -> word pages -> base < 2 ^ bits -> tag g base = Some (f, k) ->
  (forall a, In a l -> (exists q, al_gran a = 2 ^ q /\ 12 <= q /\ q < 64) /\ k <> al_handle a) ->
  forall t, try_free_pages dbg g (l ++ t) base pages = (let '(r, g', t') := try_free_pages dbg g t base pages in (r, g', l ++ t')).
Proof.
  induction l as [|a l IH]; intros R W B T H t; cbn [app try_free_pages]; [destruct (try_free_pages dbg g t base pages) as [[]]; reflexivity|].
  destruct (H a (or_introl eq_refl)) as (H1 & H2).
  destruct (free_pages_other dbg bits g a base pages f k R H1 W B T H2) as (e & ->).
  rewrite IH by (auto; intros; apply H; right; assumption). destruct (try_free_pages dbg g t base pages) as [[]]. reflexivity.
Qed.

Lemma run_held : forall ty b len L, In (HRun ty b len) L -> In (b, len) (held ty L).
Proof. intros. unfold held. apply in_flat_map. exists (HRun ty b len). split; [exact H|]. cbn [held_of]. rewrite N.eqb_refl. left. reflexivity. Qed.

Lemma run_owned : forall dbg bits s L a b len, sinv dbg bits s L -> In a (s_als s) -> In (HRun (al_type a) b len) L ->
  0 < len /\ b + len <= 2 ^ bits /\ forall x, in_range b len x -> tag (s_g s) x = Some (true, al_handle a).
Proof.
  intros dbg bits s L a b len I Ha H. pose proof (i_runs _ _ _ _ I a Ha) as (R & _).
  assert (Hr : In (b, len) (runs a L)) by (apply in_or_app; right; now apply run_held).
  pose proof (r_run _ _ _ _ R) as F. rewrite Forall_forall in F. destruct (F _ Hr) as (F1 & F2 & F3 & F4 & F5). cbn [fst snd] in *.
  split; [exact F1|]. split; [exact F5|]. intros x Hx. exact (r_owned _ _ _ _ R (b, len) x Hr Hx).
Qed.

(** Any part of a run is a run. *)
Lemma mult_div_add : forall x y, x mod PAGE = 0 -> (x + y) / PAGE = x / PAGE + y / PAGE.
Proof.
  intros x y H. apply N.mod_divide in H; [|discriminate]. destruct H as (c & ->). rewrite N.div_mul by discriminate.
  now rewrite N.div_add_l by discriminate.
Qed.

Lemma rinv_split : forall bits g a v l l1 R, rinv bits g a ((v, l) :: R) -> 0 < l1 -> l1 < l -> l1 mod al_gran a = 0 ->
  rinv bits g a ((v, l1) :: (v + l1, l - l1) :: R).
Proof.
  intros bits g a v l l1 R (I & E) L0 L1 M.
  pose proof (r_gran _ _ _ _ I) as (k & Ek & Hk1 & Hk2).
  pose proof (Forall_inv (r_run _ _ _ _ I)) as (F1 & F2 & F3 & F4 & F5). pose proof (Forall_inv_tail (r_run _ _ _ _ I)) as FT. cbn [fst snd] in *.
  pose proof (r_apart _ _ _ _ I) as A. apply FOP_cons in A. destruct A as (A1 & A2).
  assert (GP : 0 < al_gran a) by (rewrite Ek; apply pow2_pos).
  assert (M2 : (l - l1) mod al_gran a = 0).
  { apply N.mod_divide in F4; [|lia]. apply N.mod_divide in M; [|lia]. apply N.mod_divide; [lia|]. now apply N.divide_sub_r. }
  assert (MP : l1 mod PAGE = 0).
  { rewrite Ek in M. apply (pow2_divides PAGE (2 ^ k) l1); [exists 12; reflexivity|exists k; reflexivity| |exact M]. change PAGE with (2 ^ 12).
    apply N.pow_le_mono_r; [discriminate|exact Hk1]. }
  assert (SD : in_reserved a (v + l1) = in_reserved a v).
  { destruct (r_side _ _ _ _ I (v, l) (or_introl eq_refl)) as [H|H]; rewrite !H by (unfold rin, in_range; cbn [fst snd]; clear - L0 L1; lia); reflexivity. }
  assert (SUM : l / PAGE = l1 / PAGE + (l - l1) / PAGE) by (rewrite <- mult_div_add by exact MP; f_equal; clear - L0 L1; lia).
  assert (SUB : forall r x, r = (v, l1) \/ r = (v + l1, l - l1) -> rin r x -> rin (v, l) x).
  { clear - L0 L1. intros r x [->| ->] H; unfold rin, in_range in *; cbn [fst snd] in *; lia. }
  split.
  - constructor; try apply I.
    + apply FOP_cons. split; [constructor|apply FOP_cons; split; [|exact A2]].
      * unfold apart. cbn [fst snd]. clear - L0 L1. lia.
      * rewrite Forall_forall in *. intros y Hy. specialize (A1 y Hy). clear - A1 L0 L1. unfold apart in *. cbn [fst snd] in *. lia.
      * rewrite Forall_forall in *. intros y Hy. specialize (A1 y Hy). clear - A1 L0 L1. unfold apart in *. cbn [fst snd] in *. lia.
    + constructor; [|constructor; [|exact FT]]; cbn [fst snd]; repeat split; auto; try (clear - L0 L1 F1 F2 F5; lia).
      rewrite N.add_mod, F3, M by (clear - GP; lia). apply N.mod_0_l. clear - GP. lia.
    + intros r x Hr Hx. destruct Hr as [<-|[<-|Hr]]; [apply (r_owned _ _ _ _ I (v, l) x (or_introl eq_refl)); eauto|
        apply (r_owned _ _ _ _ I (v, l) x (or_introl eq_refl)); eauto|apply (r_owned _ _ _ _ I r x (or_intror Hr) Hx)].
    + intros r Hr. destruct Hr as [<-|[<-|Hr]]; [| |apply (r_side _ _ _ _ I); right; exact Hr];
      (destruct (r_side _ _ _ _ I (v, l) (or_introl eq_refl)) as [H|H]; [left|right]; intros x Hx; apply H; (eapply SUB; [|exact Hx]; auto)).
    + pose proof (r_used _ _ _ _ I) as U. cbn [filter fst] in *. rewrite SD. destruct (in_reserved a v); [|exact U].
      rewrite !bytes_cons in *. cbn [snd] in *. clear - U L1. lia.
    + pose proof (r_claimed _ _ _ _ I) as U. cbn [filter fst] in *. rewrite SD. destruct (in_reserved a v); cbn [negb] in *; [exact U|].
      rewrite !npages_cons in *. cbn [snd] in *. clear - U SUM. lia.
  - rewrite E, !npages_cons. cbn [snd]. f_equal. clear - SUM. lia.
Qed.

Definition pieces (v l b n : N) : list (N * N) :=
  (if v <? b then [(v, b - v)] else []) ++ (if b + n <? v + l then [(b + n, v + l - (b + n))] else []).

Lemma rinv_carve : forall bits g a v l b n R, rinv bits g a ((v, l) :: R) -> v <= b -> 0 < n -> b + n <= v + l ->
  b mod al_gran a = 0 -> n mod al_gran a = 0 -> rinv bits g a ((b, n) :: pieces v l b n ++ R).
Proof.
  intros bits g a v l b n R I H1 H2 H3 M1 M2.
  pose proof (Forall_inv (r_run _ _ _ _ (proj1 I))) as (F1 & F2 & F3 & F4 & F5). cbn [fst snd] in *.
  pose proof (r_gran _ _ _ _ (proj1 I)) as (k & Ek & _). assert (GP : al_gran a <> 0) by (rewrite Ek; apply N.pow_nonzero; lia).
  assert (MB : (b - v) mod al_gran a = 0).
  { apply N.mod_divide in F3; [|exact GP]. apply N.mod_divide in M1; [|exact GP]. apply N.mod_divide; [exact GP|]. now apply N.divide_sub_r. }
  assert (TAIL : forall R', rinv bits g a ((b, v + l - b) :: R') ->
    rinv bits g a ((b, n) :: (if b + n <? v + l then [(b + n, v + l - (b + n))] else []) ++ R')).
  { intros R' J. destruct (N.ltb_spec (b + n) (v + l)) as [L|L].
    - cbn [app]. replace (v + l - (b + n)) with (v + l - b - n) by lia. apply rinv_split; [exact J|lia|lia|exact M2].
    - cbn [app]. replace n with (v + l - b) by lia. exact J. }
  unfold pieces. destruct (N.ltb_spec v b) as [L|L].
  - cbn [app]. assert (J : rinv bits g a ((b, v + l - b) :: (v, b - v) :: R)).
    { eapply rinv_perm; [apply perm_swap|]. pose proof (rinv_split bits g a v l (b - v) R I ltac:(lia) ltac:(lia) MB) as J.
      replace (v + (b - v)) with b in J by lia. replace (l - (b - v)) with (v + l - b) in J by lia. exact J. }
    apply TAIL in J. eapply rinv_perm; [|exact J]. apply perm_skip. rewrite <- Permutation_middle. reflexivity.
  - assert (EB : b = v) by lia. subst b. cbn [app]. apply TAIL. replace (v + l - v) with l by lia. exact I.
Qed.

(** The only run that holds an address. *)
Lemma run_unique : forall dbg bits s L t1 v1 l1 t2 v2 l2 x, sinv dbg bits s L -> In (HRun t1 v1 l1) L -> In (HRun t2 v2 l2) L ->
  in_range v1 l1 x -> in_range v2 l2 x -> HRun t1 v1 l1 = HRun t2 v2 l2.
Proof.
  intros dbg bits s L t1 v1 l1 t2 v2 l2 x I H Y X1 X2.
  destruct (i_type _ _ _ _ I _ H) as (a1 & A1 & E1). destruct (i_type _ _ _ _ I _ Y) as (a2 & A2 & E2). cbn [type_of] in *.
  rewrite <- E1 in H. rewrite <- E2 in Y.
  destruct (run_owned _ _ _ _ _ _ _ I A1 H) as (_ & _ & T1). destruct (run_owned _ _ _ _ _ _ _ I A2 Y) as (_ & _ & T2).
  assert (EH : al_handle a1 = al_handle a2) by (specialize (T1 x X1); specialize (T2 x X2); congruence).
  assert (EA : a1 = a2) by (eapply NoDup_unique; [exact (i_handles _ _ _ _ I)|exact A1|exact A2|exact EH]). subst a2.
  pose proof (r_apart _ _ _ _ (proj1 (i_runs _ _ _ _ I a1 A1))) as FA. apply FOP_app in FA. destruct FA as (_ & FA & _).
  destruct (FOP_in _ _ _ _ _ FA (run_held _ _ _ _ H) (run_held _ _ _ _ Y)) as [E|[E|E]].
  - congruence.
  - unfold apart, in_range in *. cbn [fst snd] in *. lia.
  - unfold apart, in_range in *. cbn [fst snd] in *. lia.
Qed.

Lemma give_back_perm : forall gran b pages L ty v l, In (HRun ty v l) L -> v <= b -> b + round_up (pages * 4096) (gran ty) <= v + l ->
  (forall t v2 l2, In (HRun t v2 l2) L -> v2 <= b -> b + round_up (pages * 4096) (gran t) <= v2 + l2 -> HRun t v2 l2 = HRun ty v l) ->
  exists rest, Permutation L (HRun ty v l :: rest) /\
    Permutation (give_back gran b pages L) (map (fun p => HRun ty (fst p) (snd p)) (pieces v l b (round_up (pages * 4096) (gran ty))) ++ rest).
Proof.
  intros gran b pages L ty v l H H1 H2 U. induction L as [|h L IH]; [destruct H|].
  assert (KEEP : h <> HRun ty v l -> give_back gran b pages (h :: L) = h :: give_back gran b pages L ->
    exists rest, Permutation (h :: L) (HRun ty v l :: rest) /\ Permutation (give_back gran b pages (h :: L))
      (map (fun p => HRun ty (fst p) (snd p)) (pieces v l b (round_up (pages * 4096) (gran ty))) ++ rest)).
  { intros NE GE. destruct H as [H|H]; [congruence|]. destruct (IH H) as (rest & P1 & P2); [intros; apply U; auto; right; assumption|].
    exists (h :: rest). split; [rewrite P1; apply perm_swap|]. rewrite GE, P2. apply Permutation_middle. }
  destruct h as [t q s al|t q s|t q s]; try (apply KEEP; [discriminate|reflexivity]).
  cbn [give_back] in *. destruct ((q <=? b) && (b + round_up (pages * 4096) (gran t) <=? q + s)) eqn:C.
  - rewrite andb_true_iff, !N.leb_le in C. destruct C as (C1 & C2). pose proof (U t q s (or_introl eq_refl) C1 C2) as E. injection E as -> -> ->.
    exists L. split; [reflexivity|]. unfold pieces. rewrite app_assoc, map_app. destruct (v <? b), (_ <? _); reflexivity.
  - apply KEEP; [|reflexivity]. intros E. injection E as -> -> ->. rewrite andb_false_iff, !N.leb_gt in C. lia.
Qed.

Lemma held_runs : forall ty t l, held ty (map (fun p => HRun t (fst p) (snd p)) l) = if t =? ty then l else [].
Proof.
  intros ty t l. unfold held. induction l as [|[x y] l IH]; [destruct (t =? ty); reflexivity|]. cbn [map flat_map held_of fst snd]. rewrite IH.
  destruct (t =? ty); reflexivity.
Qed.
Lemma blocks_runs : forall ty t l, blocks_of ty (map (fun p => HRun t (fst p) (snd p)) l) = [].
Proof. intros ty t l. unfold blocks_of. induction l as [|[x y] l IH]; [reflexivity|]. cbn [map flat_map block_of]. exact IH. Qed.

Lemma granularity_of : forall dbg bits s L a, sinv dbg bits s L -> In a (s_als s) -> granularity s (al_type a) = al_gran a.
Proof.
  intros dbg bits s L a I Ha. unfold granularity. destruct (find (fun a0 => al_type a0 =? al_type a) (s_als s)) as [a2|] eqn:F.
  - apply find_some in F. destruct F as (F1 & F2). apply N.eqb_eq in F2. f_equal. eapply NoDup_unique; [exact (i_types _ _ _ _ I)|exact F1|exact Ha|exact F2].
  - exfalso. pose proof (find_none _ _ F a Ha) as X. cbv beta in X. rewrite N.eqb_refl in X. discriminate.
Qed.

Lemma pages_word : forall bits pages gran len, bits < 64 -> (exists q, gran = 2 ^ q /\ 12 <= q /\ q < 64) -> len = round_up (pages * 4096) gran -> len <= 2 ^ bits ->
  pages * 4096 <= 2 ^ bits.
Proof.
  intros bits pages gran len B (q & -> & _) E H. pose proof (pow2_pos q) as P. pose proof (pad_ge (pages * 4096) (2 ^ q) P) as G. unfold pad in G. unfold round_up in E.
  rewrite <- E in G. eapply N.le_trans; eauto.
Qed.
Lemma round_up_pos : forall x gran, 0 < gran -> 0 < x -> 0 < round_up x gran /\ round_up x gran mod gran = 0.
Proof.
  intros x gran H1 H2. split; [|unfold round_up; apply N.mod_mul; lia]. pose proof (pad_ge x gran H1) as P. unfold pad in P. unfold round_up. lia.
Qed.

(** Freeing part of a run: what the two sides of the call look like. *)
Record part (dbg : bool) (bits : N) (g : gcd) (m : memory) (l : list alloc) (L : ledger) (b pages ty v len : N) (pre : list alloc) (a : alloc)
  (post : list alloc) (n : N) (rest : ledger) : Prop := {
  pt_list : l = pre ++ a :: post;
  pt_type : al_type a = ty;
  pt_n : n = round_up (pages * 4096) (al_gran a);
  pt_word : word pages;
  pt_tag : tag g b = Some (true, al_handle a);
  pt_bound : b < 2 ^ bits;
  pt_sum : b + pages * PAGE < two64;
  pt_perm : Permutation L (HRun ty v len :: rest);
  pt_after : Permutation (give_back (granularity (Sys g m l)) b pages L) (map (fun p => HRun ty (fst p) (snd p)) (pieces v len b n) ++ rest);
  pt_rinv : rinv bits g a ((b, n) :: map region (al_heaps a) ++ pieces v len b n ++ held ty rest);
  pt_other : forall a2, In a2 (pre ++ post) ->
    (exists q, al_gran a2 = 2 ^ q /\ 12 <= q /\ q < 64) /\ al_handle a <> al_handle a2 /\ 0 <> al_handle a2 }.

Lemma part_ok : forall dbg bits g m l L b pages ty v len, sinv dbg bits (Sys g m l) L -> 0 < pages ->
  In (HRun ty v len) L -> b mod granularity (Sys g m l) ty = 0 -> v <= b ->
  b + round_up (pages * 4096) (granularity (Sys g m l) ty) <= v + len ->
  exists pre a post n rest, part dbg bits g m l L b pages ty v len pre a post n rest.
Proof.
  intros dbg bits g m l L b pages ty v len I P0 H M V1 V2.
  destruct (i_type _ _ _ _ I _ H) as (a & Ha & ET). cbn [type_of s_als] in *. pose proof (granularity_of _ _ _ _ _ I Ha) as GR. rewrite ET in GR. rewrite GR in *.
  pose proof Ha as Ha0. apply in_split in Ha. destruct Ha as (pre & post & EQ).
  pose proof (i_runs _ _ _ _ I a Ha0) as RA. cbn [s_g] in RA. pose proof (r_bits _ _ _ _ (proj1 RA)) as HB. pose proof (pow_le_64 _ HB) as HB2.
  destruct (gran_of _ _ _ _ RA) as (q & Eq & Hq1 & Hq2). assert (GP : 0 < al_gran a) by (rewrite Eq; apply pow2_pos).
  destruct (round_up_pos (pages * 4096) (al_gran a) GP ltac:(lia)) as (N0 & NM).
  pose proof H as HR. rewrite <- ET in HR. destruct (run_owned _ _ _ _ _ _ _ I Ha0 HR) as (L0 & LB & T). cbn [s_g] in T.
  pose proof (pad_ge (pages * 4096) (al_gran a) GP) as PG. change (pad (pages * 4096) (al_gran a)) with (round_up (pages * 4096) (al_gran a)) in PG.
  set (n := round_up (pages * 4096) (al_gran a)) in *.
  assert (UQ : forall t v2 l2, In (HRun t v2 l2) L -> v2 <= b -> b + round_up (pages * 4096) (granularity (Sys g m l) t) <= v2 + l2 -> HRun t v2 l2 = HRun ty v len).
  { intros t v2 l2 H2 W1 W2. eapply (run_unique _ _ _ _ _ _ _ _ _ _ b I H2 H); [|unfold in_range; lia].
    destruct (i_type _ _ _ _ I _ H2) as (a2 & Ha2 & ET2). cbn [type_of] in ET2. rewrite <- ET2, (granularity_of _ _ _ _ _ I Ha2) in W2.
    destruct (gran_of _ _ _ _ (i_runs _ _ _ _ I a2 Ha2)) as (q2 & Eq2 & _). pose proof (pow2_pos q2) as G2. rewrite <- Eq2 in G2.
    destruct (round_up_pos (pages * 4096) (al_gran a2) G2 ltac:(lia)) as (N2 & _). unfold in_range. lia. }
  assert (V2' : b + round_up (pages * 4096) (granularity (Sys g m l) ty) <= v + len) by (rewrite GR; exact V2).
  destruct (give_back_perm (granularity (Sys g m l)) b pages L ty v len H V1 V2' UQ) as (rest & Q1 & Q2). rewrite GR in Q2. fold n in Q2.
  exists pre, a, post, n, rest. constructor; auto.
  - unfold word. clear - PG V2 LB HB2. change two64 with (2 * 2 ^ 63). lia.
  - apply T. unfold in_range. lia.
  - clear - V2 LB N0. lia.
  - clear - PG V2 LB HB2. unfold PAGE. change two64 with (2 * 2 ^ 63). lia.
  - assert (RI : rinv bits g a ((v, len) :: map region (al_heaps a) ++ held ty rest)).
    { eapply rinv_perm; [|exact RA]. unfold runs. rewrite ET, (held_perm _ _ _ Q1). unfold held. cbn [flat_map held_of]. rewrite N.eqb_refl. cbn [app].
      apply Permutation_sym, Permutation_middle. }
    apply (rinv_carve _ _ _ _ _ b n) in RI; auto. eapply rinv_perm; [|exact RI]. apply perm_skip. rewrite !app_assoc. apply Permutation_app_tail.
    apply Permutation_app_comm.
  - intros a2 H2. assert (H2' : In a2 l) by (rewrite EQ; apply in_mid; auto). split; [eapply gran_of; apply (i_runs _ _ _ _ I a2 H2')|].
    assert (HN : NoDup (map al_handle (pre ++ a :: post))) by (rewrite <- EQ; exact (i_handles _ _ _ _ I)).
    pose proof (NoDup_mid _ al_handle _ _ _ _ HN H2) as NH. destruct (i_handle _ _ _ _ I a2 H2') as (Z & _). split; congruence.
Qed.

Lemma step_freepages : forall dbg bits s L b pages out s',
  sinv dbg bits s L -> sys_step dbg s (SFreePages b pages) = (out, s') -> out <> Crashed ->
  polite s L (SFreePages b pages) out s' -> sinv dbg bits s' (record s (SFreePages b pages) out L).
Proof.
  intros dbg bits [g m l] L b pages out s' I E NC (P0 & (ty & v & len & H & M & V1 & V2) & PF).
  destruct (part_ok _ _ _ _ _ _ _ _ _ _ _ I P0 H M V1 V2) as (pre & a & post & n & rest & [EQ ET EN WP TB BB SM DP GB RI OK]). subst l.
  cbn [s_g s_m s_als] in *. cbn [sys_step s_g s_m s_als] in E. unfold core_free_pages in E.
  destruct (two64 <=? pages * PAGE); [inversion E; subst; exact I|].
  destruct (two64 <=? b + pages * PAGE); [inversion E; subst; exact I|].
  destruct (negb (b mod PAGE =? 0)); [inversion E; subst; exact I|].
  assert (Ha0 : In a (pre ++ a :: post)) by (apply in_mid; auto).
  pose proof (i_reach _ _ _ _ I) as RC. cbn [s_g] in RC.
  destruct (i_handle _ _ _ _ I a Ha0) as (H0 & HW).
  rewrite (free_pages_skip dbg bits g b pages true (al_handle a) pre RC WP BB TB) in E.
  2:{ intros a2 H2. destruct (OK a2 ltac:(apply in_or_app; auto)) as (O1 & O2 & _). auto. }
  cbn [try_free_pages] in E. destruct (free_pages dbg g a b pages) as [[r g'] a'] eqn:EF.
  destruct r as [u|e|].
  - destruct (free_pages_own _ _ _ _ _ _ _ _ _ _ _ RC RI H0 WP EN EF) as (S & S2 & S3 & R & G & RI2); [discriminate|].
    inversion E; subst out s'. cbn [record]. set (L' := give_back _ b pages L) in *.
    eapply sinv_update with (L := L); [exact I|exact R|exact S| | | | | |].
    + unfold runs. rewrite (proj1 S), S3, ET. eapply rinv_perm; [|exact RI2]. apply Permutation_app_head. rewrite (held_perm _ _ _ GB).
      unfold held at 2. rewrite flat_map_app. fold (held ty rest). fold (held ty (map (fun p => HRun ty (fst p) (snd p)) (pieces v len b n))).
      now rewrite held_runs, N.eqb_refl.
    + eapply pinv_ext; [exact S2|exact S3|]. eapply pinv_perm; [|exact (i_pool _ _ _ _ I a Ha0)]. rewrite (blocks_perm _ _ _ DP), (blocks_perm _ _ _ GB).
      rewrite blocks_cons_other by reflexivity. unfold blocks_of at 2. rewrite flat_map_app. fold (blocks_of (al_type a) rest).
      fold (blocks_of (al_type a) (map (fun p => HRun ty (fst p) (snd p)) (pieces v len b n))). now rewrite blocks_runs.
    + intros a2 H2. destruct (OK a2 H2) as (_ & O1 & O2). eapply gave_keeps; [exact G|congruence|exact O1].
    + intros t Ht. rewrite (held_perm _ _ _ DP), (blocks_perm _ _ _ DP), (held_perm _ _ _ GB), (blocks_perm _ _ _ GB).
      unfold held at 2, blocks_of at 2. rewrite !flat_map_app. fold (held t rest) (blocks_of t rest).
      fold (held t (map (fun p => HRun ty (fst p) (snd p)) (pieces v len b n))) (blocks_of t (map (fun p => HRun ty (fst p) (snd p)) (pieces v len b n))).
      rewrite held_runs, blocks_runs. destruct (N.eqb_spec ty t); [congruence|].
      rewrite held_cons_other, blocks_cons_other by (cbn [held_of block_of]; destruct (N.eqb_spec ty t); [contradiction|reflexivity]). split; reflexivity.
    + intros h Hh. apply (Permutation_in _ GB) in Hh. apply in_app_or in Hh. destruct Hh as [Hh|Hh].
      * right. apply in_map_iff in Hh. destruct Hh as (p & <- & _). cbn [type_of]. congruence.
      * left. apply (Permutation_in _ (Permutation_sym DP)). right. exact Hh.
    + intros h Hh. apply (Permutation_in _ GB) in Hh. apply in_app_or in Hh. destruct Hh as [Hh|Hh].
      * apply in_map_iff in Hh. destruct Hh as (p & <- & _). exact Logic.I.
      * apply (i_header _ _ _ _ I). apply (Permutation_in _ (Permutation_sym DP)). right. exact Hh.
  - destruct (free_pages_own _ _ _ _ _ _ _ _ _ _ _ RC RI H0 WP EN EF) as (_ & _ & _ & R & -> & f & k & TK & KK); [discriminate|].
    pose proof (free_pages_skip dbg bits g' b pages f k post R WP BB TK) as SK. specialize (SK ltac:(
      intros a2 H2; destruct (OK a2 ltac:(apply in_or_app; auto)) as (O1 & O2 & O3); split; [exact O1|destruct KK as [->| ->]; auto]) []).
    rewrite app_nil_r in SK. cbn [try_free_pages] in SK. rewrite app_nil_r in SK. rewrite SK in E. inversion E; subst out s'. cbn [record].
    cbn [s_g done] in PF. rewrite (PF _ eq_refl). exact I.
  - inversion E; subst. contradiction.
Qed.

(** ** The other users of the map, and writes *)
Lemma rinv_other : forall bits g g' a R, rinv bits g a R ->
  (forall x f, tag g x = Some (f, al_handle a) -> tag g' x = Some (f, al_handle a)) ->
  (forall x, tag g' x = Some (false, al_handle a) -> tag g x = Some (false, al_handle a)) -> rinv bits g' a R.
Proof.
  intros bits g g' a R (I & E) K1 K2. split; [|exact E].
  pose proof (r_owned _ _ _ _ I) as r_owned0. pose proof (r_resowner _ _ _ _ I) as r_resowner0. pose proof (r_free _ _ _ _ I) as r_free0.
  constructor; try apply I.
  - intros r x Hr Hx. apply K1. eauto.
  - intros x Hx. destruct (r_resowner0 x Hx) as (f & Hf). eauto.
  - intros x Hx. auto.
Qed.

Lemma sinv_map : forall dbg bits g g' m l L, sinv dbg bits (Sys g m l) L -> reach dbg bits g' ->
  (forall a x f, In a l -> tag g x = Some (f, al_handle a) -> tag g' x = Some (f, al_handle a)) ->
  (forall a x, In a l -> tag g' x = Some (false, al_handle a) -> tag g x = Some (false, al_handle a)) ->
  sinv dbg bits (Sys g' m l) L.
Proof.
  intros dbg bits g g' m l L I R K1 K2. pose proof (i_runs _ _ _ _ I) as IR. destruct I. cbn [s_g s_m s_als] in *. constructor; cbn [s_g s_m s_als]; auto.
  intros a Ha. eapply rinv_other; [apply IR; exact Ha|eauto|eauto].
Qed.

Lemma owner_tag : forall g x h, owner g x = Some h -> exists f, tag g x = Some (f, h).
Proof. intros g x h H. unfold owner, tag in *. destruct (state_at (g_blocks g) x) as [s|]; [|discriminate]. cbn [option_map] in *. injection H as <-. eauto. Qed.
Lemma tag_owner : forall g x f h, tag g x = Some (f, h) -> owner g x = Some h.
Proof. intros g x f h H. unfold owner, tag in *. destruct (state_at (g_blocks g) x) as [s|]; [|discriminate]. cbn [option_map] in *. injection H as _ <-. reflexivity. Qed.

Lemma step_gcd : forall dbg bits s L o out s',
  sinv dbg bits s L -> sys_step dbg s (SGcd o) = (out, s') -> out <> Crashed ->
  polite s L (SGcd o) out s' -> sinv dbg bits s' (record s (SGcd o) out L).
Proof.
  intros dbg bits [g m l] L o out s' I E NC (W & PF & PO). cbn [sys_step s_g s_m s_als] in *.
  destruct (gcd_step g o) as [r g'] eqn:ES.
  assert (RC : reach dbg bits g) by exact (i_reach _ _ _ _ I).
  destruct r as [v|e|]; inversion E; subst out s'; cbn [record s_g] in *.
  - assert (RC' : reach dbg bits g') by (eapply reach_step; eauto; discriminate).
    destruct RC as ((n & p & ops & R) & B). pose proof (memory_call_exact_effect _ _ _ _ _ _ _ _ _ R B W ES) as X.
    assert (SAME : g_blocks g' = g_blocks g -> sinv dbg bits (Sys g' m l) L).
    { intros EQ. assert (ET : forall x, tag g' x = tag g x) by (intros x; apply tag_eq; now rewrite EQ). eapply sinv_map; [exact I|exact RC'| |]; intros; [rewrite ET|rewrite <- ET]; assumption. }
    assert (MAIN : (exists base len st st', call_range o v = Some (base, len) /\ 0 < len /\ base + len <= 2 ^ bits /\
           call_effect o st st' /\ range_changed (g_blocks g) (g_blocks g') base len st st') -> sinv dbg bits (Sys g' m l) L).
    { intros (base & len & st & st' & C1 & C2 & C3 & C4 & G1 & G2).
      assert (TI : forall x, in_range base len x -> tag g x = Some (ms_alloc st, ms_image st) /\ tag g' x = Some (ms_alloc st', ms_image st')).
      { intros x Hx. destruct (G1 x Hx) as (S1 & S2). apply tag_of in S1, S2. auto. }
      assert (TO : forall x, ~ in_range base len x -> tag g' x = tag g x) by (intros x Hx; apply tag_eq; auto).
      assert (NO : match o with OpSetAttributes _ _ _ | OpSetCapabilities _ _ _ => True | _ => forall a x, In a l -> in_range base len x -> ms_image st <> al_handle a end).
      { destruct o; auto; intros a x Ha Hx EQ; destruct (TI x Hx) as (T1 & _); apply tag_owner in T1;
        (refine (PO v base len x (al_handle a) eq_refl C1 Hx _ _); [exists a; auto|congruence]). }
      eapply sinv_map; [exact I|exact RC'| |].
      - intros a x f Ha Hx. destruct (in_range_dec base len x) as [Hi|Hi]; [|now rewrite TO]. destruct (TI x Hi) as (T1 & T2). rewrite Hx in T1.
        injection T1 as E1 E2. destruct o; cbn [call_effect] in C4; try (exfalso; apply (NO a x Ha Hi); congruence);
        destruct C4 as (_ & _ & ->); cbn [ms_alloc ms_image] in T2; congruence.
      - intros a x Ha Hx. destruct (in_range_dec base len x) as [Hi|Hi]; [|now rewrite <- TO]. destruct (TI x Hi) as (T1 & T2). rewrite Hx in T2.
        injection T2 as E1 E2. destruct o; cbn [call_effect] in C4.
        + destruct C4 as (_ & _ & _ & ->). cbn [ms_image] in E2. exfalso. apply (NO a x Ha Hi). congruence.
        + destruct C4 as (_ & _ & ->). cbn [ms_image] in E2. exfalso. apply (NO a x Ha Hi). congruence.
        + destruct C4 as (_ & _ & _ & _ & _ & _ & ->). discriminate.
        + destruct C4 as (_ & _ & _ & ->). cbn [ms_image] in E2. exfalso. destruct (i_handle _ _ _ _ I a Ha). congruence.
        + destruct C4 as (_ & _ & _ & ->). cbn [ms_image] in E2. exfalso. apply (NO a x Ha Hi). congruence.
        + destruct C4 as (_ & _ & ->). cbn [ms_alloc ms_image] in *. congruence.
        + destruct C4 as (_ & _ & ->). cbn [ms_alloc ms_image] in *. congruence.
        + destruct C4.
        + destruct C4. }
    destruct o; try (apply SAME; exact X); (destruct X as [(_ & _ & X)|X]; [apply SAME; exact X|apply MAIN; exact X]).
  - rewrite (PF e eq_refl). exact I.
  - contradiction.
Qed.

Lemma step_write : forall dbg bits s L m out s',
  sinv dbg bits s L -> sys_step dbg s (SWrite m) = (out, s') ->
  polite s L (SWrite m) out s' -> sinv dbg bits s' (record s (SWrite m) out L).
Proof.
  intros dbg bits s L m out s' I E P. cbn [sys_step] in E. inversion E; subst. cbn [record polite] in *.
  pose proof (i_header _ _ _ _ I) as IH. destruct I. constructor; cbn [s_g s_m s_als]; auto. intros h Hh. pose proof (IH h Hh) as HH.
  destruct h as [| t b sz |]; cbn [header_ok] in *; auto. rewrite (P t b sz Hh). exact HH.
Qed.

Theorem history_inv : forall dbg bits s L, history dbg bits s L -> sinv dbg bits s L.
Proof.
  induction 1 as [nodesz prio ops g m R B|s L o out s' H IH E NC P].
  - constructor; cbn [s_g s_m s_als map]; try constructor; try (intros; contradiction); eauto.
  - destruct o.
    + eapply step_alloc; eauto.
    + eapply step_dealloc; eauto.
    + eapply step_pool; eauto.
    + eapply step_freepool; eauto.
    + eapply step_pages; eauto.
    + eapply step_freepages; eauto.
    + eapply step_reserve; eauto.
    + eapply step_create; eauto.
    + eapply step_gcd; eauto.
    + eapply step_write; eauto.
Qed.
