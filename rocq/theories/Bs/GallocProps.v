(** The global allocator on boot services: what a program relies on. *)
From Verif Require Import Base.Prelude Base.Bytes Bs.GallocModel Bs.GallocSpec.
From Coq Require Import Lia ZifyBool ZifyNat ZifyN Permutation.
Local Open Scope N_scope.
Ltac Zify.zify_post_hook ::= Z.div_mod_to_equations.

(** ** Words *)

Lemma word_read : forall m a v, v < 2 ^ 64 -> read_word (write_word m a v) a = v.
Proof.
  intros m a v V. unfold read_word, write_word.
  assert (E : forall i, i < 8 -> (if (a <=? a + i) && (a + i <? a + 8) then nth (N.to_nat (a + i - a)) (le_bytes 8 v) 0 else m (a + i)) = nth (N.to_nat i) (le_bytes 8 v) 0).
  { intros i I. replace ((a <=? a + i) && (a + i <? a + 8)) with true by lia. f_equal. lia. }
  pose proof (E 0 ltac:(lia)) as E0. rewrite N.add_0_r in E0. rewrite E0, !E by lia.
  change (N.to_nat 0) with 0%nat. change (N.to_nat 1) with 1%nat. change (N.to_nat 2) with 2%nat. change (N.to_nat 3) with 3%nat. change (N.to_nat 4) with 4%nat.
  change (N.to_nat 5) with 5%nat. change (N.to_nat 6) with 6%nat. change (N.to_nat 7) with 7%nat. cbn [le_bytes nth].
  exact (le_val_bytes 8 v V).
Qed.
Lemma word_other : forall m a v x, x < a \/ a + 8 <= x -> write_word m a v x = m x.
Proof. intros m a v x H. unfold write_word. replace ((a <=? x) && (x <? a + 8)) with false by lia. reflexivity. Qed.
Lemma word_same : forall m m' a, (forall x, a <= x -> x < a + 8 -> m' x = m x) -> read_word m' a = read_word m a.
Proof. intros m m' a H. unfold read_word. rewrite !H by lia. reflexivity. Qed.

(** ** Layouts *)

Definition off_of (size : N) : N := (size + 7) / 8 * 8.
Definition total (size align : N) : N := if align <=? 8 then size else align + (off_of size + 8).
Lemma extend_eq : forall size align, 8 < align -> extend size align = if off_of size + 8 <=? 2 ^ 63 - align then Some (off_of size + 8, align, off_of size) else None.
Proof. intros size align A. unfold extend, off_of. rewrite N.max_l by lia. reflexivity. Qed.
Lemma aligned : forall o a, 0 < a -> align_offset o a < a /\ (o + align_offset o a) mod a = 0.
Proof.
  intros o a A. unfold align_offset. split; [apply N.mod_lt; lia|]. pose proof (N.mod_lt o a ltac:(lia)) as L. destruct (o mod a =? 0) eqn:E.
  - apply N.eqb_eq in E. rewrite E, N.sub_0_r, N.mod_same, N.add_0_r by lia. exact E.
  - rewrite (N.mod_small (a - o mod a)) by lia. pose proof (N.div_mod o a ltac:(lia)) as D. replace (o + (a - o mod a)) with ((o / a + 1) * a) by nia. apply N.mod_mul. lia.
Qed.
Lemma big_align : forall k, 8 < 2 ^ k -> k < 64 -> 2 ^ k mod 8 = 0.
Proof.
  intros k H K. assert (3 <= k) by (destruct (N.le_gt_cases 3 k); [assumption|]; assert (2 ^ k <= 2 ^ 3) by (apply N.pow_le_mono_r; lia); lia).
  replace k with (k - 3 + 3) by lia. rewrite N.pow_add_r. apply N.mod_mul. discriminate.
Qed.

(** ** Invariant *)

(** A holding with the block it lies in. *)
Definition ent : Type := holding * N.
Definition block (e : ent) : N * N := (snd e, total (fst (snd (fst e))) (snd (snd (fst e)))).
Definition ent_ok (m : N -> N) (e : ent) : Prop :=
  let '((p, (size, align)), o) := e in
  layout_ok size align /\ 0 < o /\ o + total size align <= 2 ^ 64 /\
  if align <=? 8 then p = o /\ o mod 8 = 0
  else p = o + align_offset o align /\ p mod align = 0 /\ p < o + align /\ off_of size + 8 <= 2 ^ 63 - align /\ read_word m (p + off_of size) = o.
Lemma pairs_perm : forall A (R : A -> A -> Prop), (forall a b, R a b -> R b a) -> forall l l', Permutation l l' -> pairs R l -> pairs R l'.
Proof.
  intros A R SY l l' P. induction P; intros H.
  - exact H.
  - inversion H; subst. constructor; [|apply IHP; assumption]. rewrite <- P. assumption.
  - inversion H as [|? ? F1 H1]; subst. inversion H1 as [|? ? F2 H2]; subst. inversion F1; subst. constructor; [constructor; [apply SY; assumption | assumption]|]. constructor; assumption.
  - auto.
Qed.
Lemma apart_sym : forall b b', apart b b' -> apart b' b.
Proof. intros b b' [A B]. split; [congruence | tauto]. Qed.
Definition inv (live0 : list (N * N)) (st : gst) (hs : list holding) : Prop :=
  g_wild st = [] /\ exists es, map fst es = hs /\ Permutation (g_live st) (map block es ++ live0) /\ Forall (ent_ok (g_mem st)) es /\ pairs apart (g_live st).

Lemma ent_inside : forall m p size align o, ent_ok m ((p, (size, align)), o) ->
  o <= p /\ p + size <= o + total size align /\ (8 < align -> p + size <= p + off_of size /\ p + off_of size + 8 <= o + total size align).
Proof.
  intros m p size align o H. cbn [ent_ok] in H. destruct H as (L & O & T & H). unfold total in *. unfold off_of in *. destruct (align <=? 8) eqn:E.
  - destruct H as [-> M]. repeat split; lia.
  - destruct H as (P1 & P2 & P3 & P4 & P5). pose proof (align_offset o align). repeat split; lia.
Qed.
Lemma block_in : forall live0 st es e, Permutation (g_live st) (map block es ++ live0) -> In e es -> In (block e) (g_live st).
Proof. intros live0 st es e P I. apply (Permutation_in _ (Permutation_sym P)). apply in_or_app. left. apply in_map. exact I. Qed.
Lemma remove_block_perm : forall o n l, pairs apart l -> In (o, n) l -> existsb (fun b => fst b =? o) l = true /\ Permutation l ((o, n) :: remove_block o l).
Proof.
  intros o n l P. induction P as [|b l F P IH]; intros I; [destruct I|]. cbn [existsb remove_block]. destruct I as [-> | I].
  - cbn [fst]. rewrite N.eqb_refl. split; reflexivity.
  - destruct (fst b =? o) eqn:E.
    + rewrite Forall_forall in F. destruct (F _ I) as [N _]. cbn [fst] in N. lia.
    + destruct (IH I) as [I1 I2]. split; [rewrite I1; reflexivity|]. etransitivity; [apply perm_skip, I2 | apply perm_swap].
Qed.
Lemma ent_mem : forall m m' e, ent_ok m e -> (forall x, snd (block e) <> 0 -> snd e <= x -> x < snd e + snd (block e) -> ~ within x (fst e) -> m' x = m x) -> ent_ok m' e.
Proof.
  intros m m' [[p [size align]] o] H M. pose proof (ent_inside _ _ _ _ _ H) as (I1 & I2 & I3). cbn [ent_ok] in *. destruct H as (L & O & T & H).
  split; [exact L|]. split; [exact O|]. split; [exact T|]. destruct (align <=? 8) eqn:E; [exact H|]. destruct H as (P1 & P2 & P3 & P4 & P5).
  specialize (I3 ltac:(lia)). repeat (split; [assumption|]). rewrite <- P5. apply word_same. intros x X1 X2. unfold block, within in M. cbn [fst snd] in M. apply M; lia.
Qed.
Lemma pairs_in2 : forall l b b', pairs apart l -> In b l -> In b' l -> b = b' \/ apart b b'.
Proof.
  intros l b b' P. induction P as [|c l F P IH]; intros I J; [destruct I|]. rewrite Forall_forall in F. destruct I as [-> | I], J as [-> | J].
  - left. reflexivity.
  - right. apply F, J.
  - right. apply apart_sym, F, I.
  - apply IH; assumption.
Qed.

Lemma inv_alloc : forall dbg live0 st hs pool size align p st', inv live0 st hs -> layout_ok size align -> pool_ok (g_live st) pool ->
  g_alloc dbg st pool size align = Ok (p, st') -> inv live0 st' (if p =? 0 then hs else (p, (size, align)) :: hs).
Proof.
  intros dbg live0 st hs pool size align p st' (W & es & M & P & F & D) L PO H. unfold g_alloc in H.
  assert (NULL : forall q, @Ok unit _ (0, st) = Ok (q, st') -> inv live0 st' (if q =? 0 then hs else (q, (size, align)) :: hs)).
  { intros q Q. assert (q = 0) by congruence. assert (st = st') by congruence. subst. cbn [N.eqb]. split; [exact W|]. exists es. repeat split; assumption. }
  destruct (align <=? 8) eqn:E.
  - destruct (pool size) as [o|] eqn:PE; [|apply NULL, H]. destruct (PO _ _ PE) as (O & O8 & OT & OF). assert (p = o) by congruence. subst p.
    assert (S : st' = Gst ((o, size) :: g_live st) (g_wild st) (g_mem st)) by congruence. subst st'. destruct (o =? 0) eqn:Z; [lia|].
    split; [exact W|]. exists (((o, (size, align)), o) :: es). cbn [map fst g_live g_mem].
    assert (TE : total size align = size) by (unfold total; rewrite E; reflexivity).
    split; [rewrite M; reflexivity|]. split; [|split].
    + unfold block at 1. cbn [fst snd app]. rewrite TE. constructor. exact P.
    + constructor; [|exact F]. cbn [ent_ok]. rewrite E, TE. split; [exact L|]. split; [exact O|]. split; [exact OT|]. split; [reflexivity | exact O8].
    + constructor; assumption.
  - rewrite extend_eq in H by lia. destruct (off_of size + 8 <=? 2 ^ 63 - align) eqn:X; [|apply NULL, H].
    unfold uadd in H. destruct L as ((k & K & AK) & SP & SB).
    assert (A63 : align <= 2 ^ 63) by (rewrite AK; apply N.pow_le_mono_r; lia).
    destruct (align + (off_of size + 8) <? two64) eqn:U; [|unfold two64 in U; lia]. cbn [bind] in H.
    destruct (pool (align + (off_of size + 8))) as [o|] eqn:PE; [|apply NULL, H]. destruct (PO _ _ PE) as (O & O8 & OT & OF).
    set (q := o + align_offset o align) in *. assert (p = q) by congruence. subst p.
    assert (S : st' = Gst ((o, align + (off_of size + 8)) :: g_live st) (g_wild st) (write_word (g_mem st) (q + off_of size) o)) by congruence. subst st'.
    destruct (aligned o align ltac:(lia)) as [A1 A2]. fold q in A2. destruct (q =? 0) eqn:Z; [lia|].
    assert (TE : total size align = align + (off_of size + 8)) by (unfold total; rewrite E; reflexivity).
    split; [exact W|]. exists (((q, (size, align)), o) :: es). cbn [map fst g_live g_mem]. split; [rewrite M; reflexivity|]. split; [|split].
    + unfold block at 1. cbn [fst snd app]. rewrite TE. constructor. exact P.
    + constructor.
      * cbn [ent_ok]. rewrite E, TE. split; [split; [exists k; split; assumption | split; assumption]|]. split; [exact O|]. split; [exact OT|].
        split; [reflexivity|]. split; [exact A2|]. split; [lia|]. split; [lia|]. apply word_read. lia.
      * rewrite Forall_forall in *. intros e I. apply (ent_mem (g_mem st)); [apply F, I|]. intros x _ X1 X2 _. apply word_other.
        destruct (OF _ (block_in _ _ _ _ P I)) as [_ B]. cbn [fst snd] in B. unfold block in B, X2. cbn [fst snd] in B, X2. lia.
    + constructor; assumption.
Qed.
Lemma inv_free : forall dbg live0 st h1 h2 p size align, inv live0 st (h1 ++ (p, (size, align)) :: h2) ->
  exists o, In (o, total size align) (g_live st) /\ g_dealloc dbg st p size align = Ok (Gst (remove_block o (g_live st)) (g_wild st) (g_mem st))
    /\ inv live0 (Gst (remove_block o (g_live st)) (g_wild st) (g_mem st)) (h1 ++ h2).
Proof.
  intros dbg live0 st h1 h2 p size align (W & es & M & P & F & D).
  apply map_eq_app in M. destruct M as (e1 & e2' & -> & M1 & M2). apply map_eq_cons in M2. destruct M2 as (e & e2 & -> & ME & M2). destruct e as [h o]. cbn [fst] in ME. subst h.
  assert (OK : ent_ok (g_mem st) ((p, (size, align)), o)) by (rewrite Forall_forall in F; apply F, in_elt).
  assert (IN : In (o, total size align) (g_live st)) by (apply (block_in live0 st _ ((p, (size, align)), o) P), in_elt).
  destruct (remove_block_perm o (total size align) _ D IN) as [EX RP]. exists o. split; [exact IN|]. split.
  - unfold g_dealloc, g_free. cbn [ent_ok] in OK. destruct OK as (L & O & T & OK). destruct (align <=? 8) eqn:E.
    + destruct OK as [-> _]. rewrite EX. reflexivity.
    + destruct OK as (P1 & P2 & P3 & P4 & P5). rewrite extend_eq by lia. destruct (off_of size + 8 <=? 2 ^ 63 - align) eqn:X; [|lia].
      rewrite P5, <- P1, N.eqb_refl. cbn [negb]. rewrite Bool.andb_false_r, EX. reflexivity.
  - split; [exact W|]. exists (e1 ++ e2). cbn [g_live g_mem]. split; [rewrite map_app; exact (f_equal2 (@app holding) M1 M2)|]. split; [|split].
    + apply (Permutation_cons_inv (a := (o, total size align))). rewrite <- RP, P, !map_app. cbn [map]. rewrite <- !app_assoc. cbn [app].
      symmetry. apply Permutation_middle.
    + apply Forall_app in F. destruct F as [F1 F2]. inversion F2; subst. apply Forall_app. split; assumption.
    + apply (pairs_perm _ _ apart_sym _ _ RP) in D. inversion D; subst. assumption.
Qed.
Lemma reach_inv : forall dbg live0 st hs, pairs apart live0 -> reach dbg live0 st hs -> inv live0 st hs.
Proof.
  intros dbg live0 st hs D0 R. induction R as [m | st hs pool size align p st' R IH L PO A | st h1 h2 p size align st' R IH A | st hs m R IH H].
  - split; [reflexivity|]. exists []. split; [reflexivity|]. split; [apply Permutation_refl|]. split; [constructor | exact D0].
  - exact (inv_alloc _ _ _ _ _ _ _ _ _ IH L PO A).
  - destruct (inv_free dbg _ _ _ _ _ _ _ IH) as (o & _ & E & I). rewrite E in A. assert (X : st' = Gst (remove_block o (g_live st)) (g_wild st) (g_mem st)) by congruence. rewrite X. exact I.
  - destruct IH as (W & es & M & P & F & D). split; [exact W|]. exists es. cbn [g_live g_mem]. split; [exact M|]. split; [exact P|]. split; [|exact D].
    rewrite Forall_forall in *. intros e I. apply (ent_mem (g_mem st)); [apply F, I|]. intros x _ X1 X2 NW. apply (H x (block e)); [exact (block_in _ _ _ _ P I) | exact X1 | exact X2 |].
    apply Forall_forall. intros h HI WI. rewrite <- M in HI. apply in_map_iff in HI. destruct HI as (e' & HE & EI). subst h.
    destruct (pairs_in2 _ _ _ D (block_in _ _ _ _ P I) (block_in _ _ _ _ P EI)) as [EQ | AP].
    + (* the same block: then the same entry *)
      destruct (in_split _ _ I) as (l1 & l2 & ES). subst es. apply in_app_or in EI.
      assert (DP : pairs apart (block e :: map block (l1 ++ l2) ++ live0)).
      { apply (pairs_perm _ _ apart_sym _ _ P) in D. eapply (pairs_perm _ _ apart_sym); [|exact D]. rewrite !map_app. cbn [map]. rewrite <- !app_assoc. cbn [app]. symmetry. apply Permutation_middle. }
      inversion DP as [|? ? FA _]; subst. rewrite Forall_forall in FA.
      assert (OUT : In e' (l1 ++ l2) -> False).
      { intros J. destruct (FA (block e')) as [NE _]; [apply in_or_app; left; apply in_map, J|]. rewrite EQ in NE. congruence. }
      destruct EI as [J | [J | J]]; [apply OUT, in_or_app; left; exact J | subst e'; contradiction | apply OUT, in_or_app; right; exact J].
    + destruct AP as [_ AP]. destruct e' as [[p' [s' a']] o']. pose proof (ent_inside _ _ _ _ _ (F _ EI)) as (J1 & J2 & _). unfold within in WI. unfold block in AP, X2. cbn [fst snd] in *. lia.
Qed.

(** ** Properties *)

(** C86: what the program holds is aligned as asked, not null, lies within a block of the pool, and does not overlap anything else it holds or any
    block the pool had given to others. *)
Theorem c86_blocks : forall dbg live0 st hs, pairs apart live0 -> reach dbg live0 st hs ->
  (forall p size align, In (p, (size, align)) hs -> 0 < p /\ p mod align = 0 /\ p + size <= 2 ^ 64
     /\ Forall (fun b => p + size <= fst b \/ fst b + snd b <= p) live0
     /\ exists o n, In (o, n) (g_live st) /\ o <= p /\ p + size <= o + n)
  /\ pairs (fun h h' => fst h + fst (snd h) <= fst h' \/ fst h' + fst (snd h') <= fst h) hs.
Proof.
  intros dbg live0 st hs D0 R. destruct (reach_inv _ _ _ _ D0 R) as (W & es & M & P & F & D). split.
  - intros p size align I. rewrite <- M in I. apply in_map_iff in I. destruct I as ([h o] & HE & I). cbn [fst] in HE. subst h. rewrite Forall_forall in F.
    pose proof (F _ I) as OK. pose proof (ent_inside _ _ _ _ _ OK) as (I1 & I2 & _). cbn [ent_ok] in OK. destruct OK as (L & O & T & OK).
    split; [lia|]. split; [|split; [lia|split]].
    + destruct L as ((k & K & AK) & _). destruct (align <=? 8) eqn:E; [|apply OK]. destruct OK as [-> O8]. rewrite AK in *.
      assert (KK : k <= 3) by (destruct (N.le_gt_cases k 3); [assumption|]; assert (2 ^ 4 <= 2 ^ k) by (apply N.pow_le_mono_r; lia); lia).
      assert (J : k = 0 \/ k = 1 \/ k = 2 \/ k = 3) by lia. destruct J as [-> | [-> | [-> | ->]]]; cbn [N.pow Pos.pow Pos.iter Pos.mul]; lia.
    + apply (pairs_perm _ _ apart_sym _ _ P) in D. apply Forall_forall. intros b B.
      assert (AP : block ((p, (size, align)), o) = b \/ apart (block ((p, (size, align)), o)) b).
      { destruct (in_split _ _ I) as (l1 & l2 & ES). subst es. rewrite map_app in D. cbn [map] in D. rewrite <- app_assoc in D. cbn [app] in D.
        apply (pairs_perm _ _ apart_sym _ (block ((p, (size, align)), o) :: map block l1 ++ map block l2 ++ live0)) in D; [|symmetry; apply Permutation_middle].
        inversion D as [|? ? FA _]; subst. rewrite Forall_forall in FA. right. apply FA. apply in_or_app. right. apply in_or_app. right. exact B. }
      destruct AP as [EQ | [_ AP]].
      * exfalso. destruct (in_split _ _ I) as (l1 & l2 & ES). subst es. rewrite map_app in D. cbn [map] in D. rewrite <- app_assoc in D. cbn [app] in D.
        apply (pairs_perm _ _ apart_sym _ (block ((p, (size, align)), o) :: map block l1 ++ map block l2 ++ live0)) in D; [|symmetry; apply Permutation_middle].
        inversion D as [|? ? FA _]; subst. rewrite Forall_forall in FA. destruct (FA (block ((p, (size, align)), o))) as [NE _]; [apply in_or_app; right; apply in_or_app; right; exact B|]. congruence.
      * unfold block in AP. cbn [fst snd] in AP. lia.
    + exists o, (total size align). split; [exact (block_in _ _ _ _ P I)|]. split; lia.
  - apply (pairs_perm _ _ apart_sym _ _ P) in D. rewrite <- M. clear M P. induction es as [|e es IH]; [constructor|]. cbn [map app] in *. inversion D as [|? ? FA DA]; subst. inversion F; subst.
    constructor; [|apply IH; assumption]. apply Forall_forall. intros h I. apply in_map_iff in I. destruct I as (e' & HE & I). subst h.
    rewrite Forall_forall in FA. destruct (FA (block e')) as [_ AP]; [apply in_or_app; left; apply in_map, I|].
    match goal with H : Forall (ent_ok (g_mem st)) es |- _ => rewrite Forall_forall in H; pose proof (H _ I) as OK' end.
    destruct e as [[p [s a]] o], e' as [[p' [s' a']] o']. match goal with H : ent_ok (g_mem st) (p, (s, a), o) |- _ => pose proof (ent_inside _ _ _ _ _ H) as (J1 & J2 & _) end.
    pose proof (ent_inside _ _ _ _ _ OK') as (K1 & K2 & _). unfold block in AP. cbn [fst snd] in *. lia.
Qed.
(** C86: anything the program holds can be freed, in any order, and that frees one block of the pool; nothing else is ever freed. *)
Theorem c86_free : forall dbg live0 st h1 h2 p size align, pairs apart live0 -> reach dbg live0 st (h1 ++ (p, (size, align)) :: h2) ->
  exists st', g_dealloc dbg st p size align = Ok st' /\ reach dbg live0 st' (h1 ++ h2) /\ g_wild st' = [] /\ length (g_live st) = S (length (g_live st'))
    /\ g_mem st' = g_mem st.
Proof.
  intros dbg live0 st h1 h2 p size align D0 R. pose proof (reach_inv _ _ _ _ D0 R) as I. destruct (inv_free dbg _ _ _ _ _ _ _ I) as (o & IN & E & I').
  eexists. split; [exact E|]. split; [exact (reach_free _ _ _ _ _ _ _ _ _ R E)|]. destruct I' as (W & _). destruct I as (_ & es & _ & _ & _ & D). split; [exact W|].
  destruct (remove_block_perm o _ _ D IN) as [_ RP]. apply Permutation_length in RP. cbn [length] in RP. split; [exact RP | reflexivity].
Qed.
(** C86: a program that has freed what it held has given back every block. *)
Theorem c86_no_leak : forall dbg live0 st, pairs apart live0 -> reach dbg live0 st [] -> Permutation (g_live st) live0 /\ g_wild st = [].
Proof.
  intros dbg live0 st D0 R. destruct (reach_inv _ _ _ _ D0 R) as (W & es & M & P & _). apply map_eq_nil in M. subst es. split; [exact P | exact W].
Qed.
(** C86: the pool holds one block for each thing the program holds; an allocation that fails takes none. *)
Theorem c86_count : forall dbg live0 st hs, pairs apart live0 -> reach dbg live0 st hs -> length (g_live st) = (length hs + length live0)%nat.
Proof.
  intros dbg live0 st hs D0 R. destruct (reach_inv _ _ _ _ D0 R) as (W & es & M & P & _). apply Permutation_length in P. rewrite app_length, map_length in P.
  rewrite P, <- M, map_length. reflexivity.
Qed.
(** C86: an allocation never panics, and changes no byte that anyone has. *)
Theorem c86_alloc : forall dbg live0 st hs pool size align, pairs apart live0 -> reach dbg live0 st hs -> layout_ok size align -> pool_ok (g_live st) pool ->
  exists p st', g_alloc dbg st pool size align = Ok (p, st')
    /\ (forall x b, In b (g_live st) -> fst b <= x -> x < fst b + snd b -> g_mem st' x = g_mem st x)
    /\ (p = 0 -> st' = st) /\ ((forall n, pool n <> None) -> size + align + 16 <= 2 ^ 63 -> p <> 0).
Proof.
  intros dbg live0 st hs pool size align D0 R L PO. unfold g_alloc. destruct (align <=? 8) eqn:E.
  - destruct (pool size) as [o|] eqn:PE.
    + destruct (PO _ _ PE) as (O & _). eexists. eexists. split; [reflexivity|]. cbn [g_mem]. split; [reflexivity|]. split; [lia|]. intros _ _. lia.
    + eexists. eexists. split; [reflexivity|]. split; [reflexivity|]. split; [reflexivity|]. intros A. destruct (A size PE).
  - rewrite extend_eq by lia. destruct (off_of size + 8 <=? 2 ^ 63 - align) eqn:X.
    + destruct L as ((k & K & AK) & SP & SB). assert (A63 : align <= 2 ^ 63) by lia. unfold uadd.
      destruct (align + (off_of size + 8) <? two64) eqn:U; [|unfold two64 in U; lia]. cbn [bind]. destruct (pool (align + (off_of size + 8))) as [o|] eqn:PE.
      * destruct (PO _ _ PE) as (O & O8 & OT & OF). eexists. eexists. split; [reflexivity|]. cbn [g_mem]. split; [|split; lia].
        intros x b B X1 X2. apply word_other. rewrite Forall_forall in OF. destruct (OF b B) as [_ AP]. cbn [fst snd] in AP. destruct (aligned o align ltac:(lia)) as [A1 _].
        lia.
      * eexists. eexists. split; [reflexivity|]. split; [reflexivity|]. split; [reflexivity|]. intros A. destruct (A _ PE).
    + eexists. eexists. split; [reflexivity|]. split; [reflexivity|]. split; [reflexivity|]. intros _ Y. unfold off_of in X. lia.
Qed.

(** ** Cases *)

Definition demo_pool (n : N) : option N := Some 0x1008.
Example demo_pool_ok : pool_ok [(0x8000, 16)] (fun n => if n <? 0x1000 then demo_pool n else None).
Proof.
  intros n p H. destruct (n <? 0x1000) eqn:E; [|discriminate]. assert (p = 0x1008) by (unfold demo_pool in H; congruence). subst p. split; [reflexivity|]. split; [reflexivity|]. split.
  - change (2 ^ 64) with 18446744073709551616. lia.
  - constructor; [|constructor]. unfold apart. cbn [fst snd]. lia.
Qed.
Example demo_layout : layout_ok 100 64.
Proof. split; [exists 6; split; reflexivity|]. split; [reflexivity|]. vm_compute. discriminate. Qed.
Example demo_alloc : exists st, g_alloc true (Gst [(0x8000, 16)] [] (fun _ => 7)) (fun n => if n <? 0x1000 then demo_pool n else None) 100 64 = Ok (0x1040, st)
  /\ g_live st = [(0x1008, 176); (0x8000, 16)] /\ read_word (g_mem st) (0x1040 + 104) = 0x1008
  /\ exists st', g_dealloc true st 0x1040 100 64 = Ok st' /\ g_live st' = [(0x8000, 16)].
Proof. eexists. split; [vm_compute; reflexivity|]. split; [vm_compute; reflexivity|]. split; [vm_compute; reflexivity|]. eexists. split; vm_compute; reflexivity. Qed.

Example demo_reach : exists st, reach true [(0x8000, 16)] st [(0x1040, (100, 64))] /\ pairs apart [(0x8000, 16)].
Proof.
  destruct demo_alloc as (st & E & _). exists st. split.
  - exact (reach_alloc _ _ _ _ _ _ _ _ _ (reach_start true [(0x8000, 16)] (fun _ => 7)) demo_layout demo_pool_ok E).
  - repeat constructor.
Qed.

Print Assumptions c86_blocks.
Print Assumptions c86_free.
Print Assumptions c86_no_leak.
Print Assumptions c86_count.
Print Assumptions c86_alloc.
