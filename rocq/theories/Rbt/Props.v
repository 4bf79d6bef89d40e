(* C08-C10: the tree collections are sorted maps; balance; growing. *)
From Coq Require Import NArith List Bool Lia Permutation Sorted.
From Verif Require Import Base.Prelude Rbt.Model Rbt.Spec Rbt.Api Rbt.Tree Rbt.Heap Rbt.FixAdd Rbt.Lookup Rbt.Store Rbt.Main Rbt.Balance.
Import ListNotations.
Local Open Scope N_scope.

(* --- C08 --- *)
(* Any history of calls on a tree in a zeroed buffer runs to its end (no panic,
   no bad pointer, no endless loop), every reply is the one the sorted map
   gives, and the map stays sorted with one slot for each element. *)
Theorem C08_tree_is_a_sorted_map :
  forall (D K : Type) (key : D -> K) (cmp : K -> K -> comparison) (kd : kind) (s0 : @st D) (cs : list (@cmd D K)),
    total_order cmp -> starts s0 -> legal_run key cmp kd true s0 cs ->
    exists rs s' m', run key cmp kd cs s0 = Val (rs, s') /\
      agrees key cmp (fresh (capacity s0)) cs rs m' /\
      in_order key cmp (a_ents m') /\ NoDup (slots m').
Proof.
  intros D K key cmp kd s0 cs TO HS HL.
  destruct (start_R key cmp kd s0 HS) as (m & t & F & L & -> & H).
  destruct (run_R key cmp TO kd cs true s0 _ t F L H HL) as (rs & s' & m' & t' & F' & L' & E1 & A & H').
  exists rs, s', m'. split; [exact E1|]. split; [exact A|]. split.
  - eapply R_order; eauto.
  - eapply R_nodup; eauto.
Qed.

(* The map decides every answer to a reading call. *)
Theorem C08_answers_are_determined :
  forall (D K : Type) (key : D -> K) (cmp : K -> K -> comparison) (m m1 m2 : @amap D) (o : @op D K) r r',
    total_order cmp -> in_order key cmp (a_ents m) -> NoDup (slots m) -> reads o = true ->
    sstep key cmp m o r m1 -> sstep key cmp m o r' m2 -> r = r'.
Proof. intros. eapply reads_det; eauto. Qed.

(* --- C09 --- *)
(* Node [p] heads a tree with [h] black nodes on each path down and no red node
   above a red node; the flag tells whether p is black (a null link is). *)
Inductive coloured {D} (f : N -> @cell D) : option N -> bool -> nat -> Prop :=
| col_null : coloured f None true 0
| col_black i a b h : c_color (f i) = BLACK -> coloured f (c_left (f i)) a h -> coloured f (c_right (f i)) b h ->
    coloured f (Some i) true (S h)
| col_red i h : c_color (f i) = RED -> coloured f (c_left (f i)) true h -> coloured f (c_right (f i)) true h ->
    coloured f (Some i) false h.

Lemma rb_coloured {D} (f : N -> @cell D) : forall c h t, rb c h t -> forall par, rep f par t -> coloured f (root_of t) c h.
Proof.
  induction 1 as [|c1 c2 n l i r Hl IHl Hr IHr|n l i r Hl IHl Hr IHr]; intros par HR; cbn [root_of rep] in *.
  - constructor.
  - destruct HR as (Ec & Ep & El & Er & Rl & Rr). eapply col_black; auto.
    + rewrite El. eapply IHl, Rl.
    + rewrite Er. eapply IHr, Rr.
  - destruct HR as (Ec & Ep & El & Er & Rl & Rr). eapply col_red; auto.
    + rewrite El. eapply IHl, Rl.
    + rewrite Er. eapply IHr, Rr.
Qed.

(* Missing: the claim also speaks of histories with deletes, for which it is
   false (below). *)
Theorem C09_balanced_without_deletes_partial :
  forall (D K : Type) (key : D -> K) (cmp : K -> K -> comparison) (s0 : @st D) (cs : list (@cmd D K)),
    total_order cmp -> starts s0 -> legal_run key cmp Red_black true s0 cs -> forallb clean_cmd cs = true ->
    exists rs s' elems h bh, run key cmp Red_black cs s0 = Val (rs, s') /\
      coloured (s_at s') (s_root s') true bh /\
      dfs s' = Val (elems, s') /\ height s' = Val (h, s') /\
      2 ^ h <= (N.of_nat (length elems) + 1) ^ 2.
Proof.
  intros D K key cmp s0 cs TO HS HL HC.
  destruct (start_R key cmp Red_black s0 HS) as (m & t & F & L & -> & H).
  destruct (run_R key cmp TO Red_black cs true s0 _ t F L H HL) as (rs & s' & m' & t' & F' & L' & E1 & A & H').
  rewrite HC in H'. destruct (r_rb _ _ _ _ _ _ _ _ _ H' eq_refl eq_refl) as [bh RB].
  pose proof (w_inv _ _ _ _ _ _ (r_wf _ _ _ _ _ _ _ _ _ H')) as I.
  exists rs, s', (map (fun i => c_data (s_at s' i)) (ino t')), (ht t'), bh.
  split; [exact E1|]. split.
  { rewrite (i_root _ _ I). eapply rb_coloured; [exact RB|]. apply (i_rep _ _ I). }
  split; [apply dfs_ok, I|]. split; [apply height_ok, I|].
  rewrite map_length. eapply rb_bound, RB.
Qed.

(* Concrete trees over numbers. *)
Definition num (x : N) : N := x.
Definition zero_cell : @cell N := mkCell 0 RED None None None.
Definition zeroed (_ : N) : @cell N := zero_cell.
Definition ncmds := list (@cmd N N).
Definition after (kd : kind) (cs : ncmds) (s : @st N) : @st N :=
  match run num N.compare kd cs s with Val (_, s') => s' | _ => s end.
Definition replies (kd : kind) (cs : ncmds) (s : @st N) : list (@reply N) :=
  match run num N.compare kd cs s with Val (rs, _) => rs | _ => [] end.
Definition runs (kd : kind) (cs : ncmds) (s : @st N) : bool :=
  match run num N.compare kd cs s with Val _ => true | _ => false end.
Lemma runs_ok kd cs s : runs kd cs s = true -> run num N.compare kd cs s = Val (replies kd cs s, after kd cs s).
Proof. unfold runs, replies, after. destruct (run num N.compare kd cs s) as [[rs s']| | |]; [reflexivity|discriminate..]. Qed.
Definition empty (cap : N) : @st N :=
  match tree_with_capacity cap zeroed with Val s => s | _ => tree_new zeroed end.
Lemma num_order : total_order N.compare.
Proof.
  constructor.
  - apply N.compare_refl.
  - intros a b. apply N.compare_antisym.
  - intros a b c. rewrite !N.compare_lt_iff. apply N.lt_trans.
  - intros a b c H. apply N.compare_eq_iff in H. now subst.
Qed.
Lemma empty_starts cap : 0 < cap -> starts (empty cap).
Proof.
  intros H. right. exists cap, zeroed. split; [reflexivity|]. unfold empty, tree_with_capacity, build_linked_list.
  apply N.ltb_lt in H. now rewrite H.
Qed.
(* A checker for [coloured]: None when out of fuel, Some None when not so. *)
Fixpoint colouredb (n : nat) (f : N -> @cell N) (p : option N) : option (option (bool * nat)) :=
  match n with
  | O => None
  | S n =>
      match p with
      | None => Some (Some (true, 0%nat))
      | Some i =>
          match colouredb n f (c_left (f i)), colouredb n f (c_right (f i)) with
          | Some (Some (a, h)), Some (Some (b, h')) =>
              if Nat.eqb h h' then
                if c_color (f i) then Some (Some (true, S h))
                else if a && b then Some (Some (false, h)) else Some None
              else Some None
          | Some _, Some _ => Some None
          | _, _ => None
          end
      end
  end.
Lemma colouredb_ok (f : N -> @cell N) : forall p b h, coloured f p b h -> forall n,
  colouredb n f p = None \/ colouredb n f p = Some (Some (b, h)).
Proof.
  induction 1 as [|i a b h Hc Hl IHl Hr IHr|i h Hc Hl IHl Hr IHr]; intros [|n]; auto; cbn [colouredb];
    (destruct (IHl n) as [->| ->]; [now left|]); (destruct (IHr n) as [->| ->]; [now left|]); right;
    rewrite Hc, PeanoNat.Nat.eqb_refl; reflexivity.
Qed.
Lemma colouredb_no n (f : N -> @cell N) p : colouredb n f p = Some None -> ~ exists b h, coloured f p b h.
Proof. intros E (b & h & H). destruct (colouredb_ok f p b h H n); congruence. Qed.

(* One delete is enough to give two paths different numbers of black nodes. *)
Theorem C09_delete_breaks_colours_refuted :
  exists (cs : ncmds) rs s', starts (empty 8) /\ legal_run num N.compare Red_black true (empty 8) cs /\
    run num N.compare Red_black cs (empty 8) = Val (rs, s') /\
    ~ exists b h, coloured (s_at s') (s_root s') b h.
Proof.
  set (cs := [Do (Add 2); Do (Add 1); Do (Add 3); Do (Delete 1)]).
  exists cs, (replies Red_black cs (empty 8)), (after Red_black cs (empty 8)).
  split; [apply empty_starts; reflexivity|]. split; [vm_compute; repeat split|].
  split; [apply runs_ok; vm_compute; reflexivity|].
  apply (colouredb_no 10). vm_compute. reflexivity.
Qed.
(* With enough of them the height bound goes too: 16 elements, height 11. *)
Definition lopsided : ncmds :=
  [Do (AddMany [0; 1; 2; 3; 4; 5; 6; 7; 8; 9; 10; 11; 12; 13; 14; 15; 16; 17; 18; 19; 20; 21; 22; 23; 24])] ++
  [@Do N N (Delete 24); Do (Add 49); Do (Delete 11); Do (Delete 7); Do (Add 48)] ++
  map (fun k => Do (Delete k)) [20; 19; 5; 23; 14; 6; 1; 0] ++
  map (fun k => Do (Add k)) [52; 30; 36; 27] ++
  [Do (Delete 49); Do (Add 6); Do (Add 51); Do (Delete 51); Do (Delete 2); Do (Delete 17); Do (Delete 12);
   Do (Delete 27); Do (Delete 4); Do (Add 51)].
Definition elems_of (s : @st N) : list N := match dfs s with Val (l, _) => l | _ => [] end.
Definition height_of (s : @st N) : N := match height s with Val (h, _) => h | _ => 0 end.
Lemma asking cs s0 : starts s0 -> legal_run num N.compare Red_black true s0 cs -> runs Red_black cs s0 = true ->
  let s' := after Red_black cs s0 in dfs s' = Val (elems_of s', s') /\ height s' = Val (height_of s', s').
Proof.
  intros HS HL HR s'. destruct (start_R num N.compare Red_black s0 HS) as (m & t & F & L & -> & H).
  destruct (run_R num N.compare num_order Red_black cs true s0 _ t F L H HL) as (rs & s1 & m' & t' & F' & L' & E1 & A & H').
  pose proof (w_inv _ _ _ _ _ _ (r_wf _ _ _ _ _ _ _ _ _ H')) as I.
  apply runs_ok in HR. fold s' in HR. rewrite E1 in HR. injection HR as _ <-.
  unfold elems_of, height_of. rewrite (dfs_ok s1 t' I), (height_ok s1 t' I). auto.
Qed.
Theorem C09_delete_breaks_height_refuted :
  exists (cs : ncmds) rs s' elems h, starts (empty 48) /\ legal_run num N.compare Red_black true (empty 48) cs /\
    run num N.compare Red_black cs (empty 48) = Val (rs, s') /\
    dfs s' = Val (elems, s') /\ height s' = Val (h, s') /\
    (N.of_nat (length elems) + 1) ^ 2 < 2 ^ h.
Proof.
  set (s' := after Red_black lopsided (empty 48)).
  assert (HS : starts (empty 48)) by (apply empty_starts; reflexivity).
  assert (HL : legal_run num N.compare Red_black true (empty 48) lopsided) by (vm_compute; repeat split).
  assert (HR : runs Red_black lopsided (empty 48) = true) by (vm_compute; reflexivity).
  exists lopsided, (replies Red_black lopsided (empty 48)), s', (elems_of s'), (height_of s').
  destruct (asking lopsided _ HS HL HR) as [A B].
  split; [exact HS|]. split; [exact HL|]. split; [exact (runs_ok _ _ _ HR)|]. split; [exact A|]. split; [exact B|].
  vm_compute. reflexivity.
Qed.

(* --- C10 --- *)
(* After any history without deletes, moving a tree (of either kind) to a
   zeroed-at-the-end buffer with room for one more element than it holds
   succeeds; every reading call answers as before, and there is room for
   exactly the new capacity.
   Missing: histories with deletes and buffers without spare room, for which
   the claim is false (below). *)
Theorem C10_growing_keeps_the_contents_partial :
  forall (D K : Type) (key : D -> K) (cmp : K -> K -> comparison) (kd : kind) (s0 : @st D) (cs : list (@cmd D K)) rs s cap raw,
    total_order cmp -> starts s0 -> legal_run key cmp kd true s0 cs -> forallb clean_cmd cs = true ->
    run key cmp kd cs s0 = Val (rs, s) ->
    len s < cap -> c_right (raw (cap - 1)) = None ->
    exists s', tree_resize cap raw s = Val s' /\ capacity s' = cap /\
      forall o, reads o = true -> legal key cmp s o ->
        exists r, run_op key cmp kd o s = Val (r, s) /\ run_op key cmp kd o s' = Val (r, s').
Proof.
  intros D K key cmp kd s0 cs rs s cap raw TO HS HL HC ER Hl Hr.
  destruct (start_R key cmp kd s0 HS) as (m0 & t0 & F0 & L0 & -> & H0).
  destruct (run_R key cmp TO kd cs true s0 _ t0 F0 L0 H0 HL) as (rs1 & s1 & m & t & F & L & E1 & A & H).
  rewrite ER in E1. injection E1 as <- <-. rewrite HC in H. cbn [andb] in H.
  destruct (grow_R key cmp kd s m t F L cap raw H Hl Hr) as (s' & t' & F' & L' & E2 & H').
  exists s'. split; [exact E2|]. split; [symmetry; apply (r_cap _ _ _ _ _ _ _ _ _ H')|].
  assert (PURE : forall s m t F L o r s1, R key cmp kd true s m t F L -> reads o = true ->
            run_op key cmp kd o s = Val (r, s1) -> legal key cmp s o -> s1 = s).
  { clear - TO. intros s m t F L o r s1 H Ho E Lg. pose proof (w_inv _ _ _ _ _ _ (r_wf _ _ _ _ _ _ _ _ _ H)) as I.
    assert (LIVE : forall i, live key cmp s i -> In i (ino t)).
    { intros i [k Hk]. eapply live_in in Hk; eauto. tauto. }
    assert (OD : forall p s2 (q : option D), opt_data p s = Val (q, s2) -> s2 = s).
    { intros [p|] s2 q; cbn; unfold get_with_idx, ret; [destruct (p <? s_cap s)|]; congruence. }
    assert (OB : forall p, (exists q, opt_data p s = Val (q, s))).
    { intros [p|]; cbn; unfold get_with_idx, ret; [destruct (p <? s_cap s)|]; eauto. }
    assert (TR : forall X (g : @mon D X) (h : X -> reply) a, g s = Val (a, s) -> then_reply g h s = Val (h a, s)).
    { intros X g h a Eg. unfold then_reply. rewrite (st_run _ _ _ _ _ Eg). reflexivity. }
    pose proof (fun k => get_node_ok key cmp s t k I) as GN.
    pose proof (first_idx_ok s t I) as FI. pose proof (last_idx_ok s t I) as LI.
    assert (GD : forall k, exists q, get key cmp k s = Val (q, s)).
    { intros k. unfold get. rewrite (st_run _ _ _ _ _ (GN k)).
      pose proof (find_t_ok key cmp TO s k t (w_srt _ _ _ _ _ _ (r_wf _ _ _ _ _ _ _ _ _ H))) as Q.
      destruct (find_t key cmp s k t) as [i|]; [|eexists; reflexivity]. rewrite st_data; [eexists; reflexivity|].
      apply (i_bnd _ _ I). now apply In_cnt. }
    assert (NX : forall i, In i (ino t) -> exists q, next_idx i s = Val (q, s)).
    { intros i Hi. destruct (In_split_t t i Hi) as (C & c & l & r0 & Et). rewrite Et in I. eexists. eapply next_idx_ok, I. }
    assert (PV : forall i, In i (ino t) -> exists q, prev_idx i s = Val (q, s)).
    { intros i Hi. destruct (In_split_t t i Hi) as (C & c & l & r0 & Et). rewrite Et in I. eexists. eapply prev_idx_ok, I. }
    assert (P : exists r, run_op key cmp kd o s = Val (r, s)).
    { destruct o; try discriminate Ho; cbn [run_op legal] in *.
      - destruct (GD k) as [q Q]. eexists. apply TR, Q.
      - eexists. apply TR, GN.
      - unfold then_reply, mbind, get_with_idx, ret. destruct (i <? s_cap s); eexists; reflexivity.
      - eexists. eapply TR, closest_ok, I.
      - destruct (OB (hd_error (ino t))) as [q Q]. eexists. apply TR. unfold first. rewrite (st_run _ _ _ _ _ FI). exact Q.
      - destruct (OB (hd_error (rev (ino t)))) as [q Q]. eexists. apply TR. unfold last. rewrite (st_run _ _ _ _ _ LI). exact Q.
      - eexists. apply TR, FI.
      - eexists. apply TR, LI.
      - assert (exists q, next key cmp d s = Val (q, s)) as [q Q].
        { unfold next, get_idx. rewrite (st_run _ _ _ _ _ (GN (key d))).
          pose proof (find_t_ok key cmp TO s (key d) t (w_srt _ _ _ _ _ _ (r_wf _ _ _ _ _ _ _ _ _ H))) as Q.
          destruct (find_t key cmp s (key d) t) as [i|]; [|eexists; reflexivity].
          destruct (NX i) as [j Ej]; [tauto|]. rewrite (st_run _ _ _ _ _ Ej). apply OB. }
        eexists. apply TR, Q.
      - assert (exists q, prev key cmp d s = Val (q, s)) as [q Q].
        { unfold prev, get_idx. rewrite (st_run _ _ _ _ _ (GN (key d))).
          pose proof (find_t_ok key cmp TO s (key d) t (w_srt _ _ _ _ _ _ (r_wf _ _ _ _ _ _ _ _ _ H))) as Q.
          destruct (find_t key cmp s (key d) t) as [i|]; [|eexists; reflexivity].
          destruct (PV i) as [j Ej]; [tauto|]. rewrite (st_run _ _ _ _ _ Ej). apply OB. }
        eexists. apply TR, Q.
      - destruct (NX i (LIVE _ Lg)) as [j Ej]. eexists. apply TR, Ej.
      - destruct (PV i (LIVE _ Lg)) as [j Ej]. eexists. apply TR, Ej.
      - eexists. apply TR, dfs_ok, I.
      - eexists. reflexivity. }
    destruct P as [r0 P]. congruence. }
  assert (ASK : forall o, reads o = true -> legal key cmp s o -> legal key cmp s' o ->
        exists r, run_op key cmp kd o s = Val (r, s) /\ run_op key cmp kd o s' = Val (r, s')).
  { intros o Ho Lg Lg'.
    destruct (op_R key cmp TO kd true s m t F L o H Lg) as (r & s2 & m2 & t2 & F2 & L2 & E3 & A3 & _).
    destruct (op_R key cmp TO kd true s' _ t' F' L' o H' Lg') as (r' & s3 & m3 & t3 & F3 & L3 & E4 & A4 & _).
    assert (r = r').
    { eapply (reads_det key cmp TO m (mkMap (a_ents m) (a_lost m) cap)); eauto.
      - eapply R_order; eauto.
      - eapply R_nodup; eauto. }
    subst r'. exists r.
    rewrite (PURE _ _ _ _ _ _ _ _ H Ho E3 Lg) in E3. rewrite (PURE _ _ _ _ _ _ _ _ H' Ho E4 Lg') in E4. auto. }
  assert (IDX : forall k i, get_idx key cmp k s = Val (Some i, s) -> get_idx key cmp k s' = Val (Some i, s')).
  { intros k i Ek. destruct (ASK (GetIdx k) eq_refl Logic.I Logic.I) as (r & A1 & A2). cbn [run_op] in A1, A2.
    unfold then_reply in A1, A2. rewrite (st_run _ _ _ _ _ Ek) in A1. injection A1 as <-.
    unfold mbind in A2. destruct (get_idx key cmp k s') as [[q s4]| | |]; try discriminate A2.
    unfold ret in A2. injection A2 as -> ->. reflexivity. }
  intros o Ho Lg. apply ASK; auto.
  destruct o; cbn [legal reads] in *; auto; try discriminate Ho; destruct Lg as [k Hk]; exists k; auto.
Qed.

Definition answer (kd : kind) (o : @op N N) (s : @st N) : option (@reply N) :=
  match run_op num N.compare kd o s with Val (r, _) => Some r | _ => None end.
Definition grown (cap : N) (s : @st N) : @st N :=
  match tree_resize cap zeroed s with Val s' => s' | _ => s end.
Definition grows (cap : N) (s : @st N) : bool :=
  match tree_resize cap zeroed s with Val _ => true | _ => false end.
Lemma grows_ok cap s : grows cap s = true -> tree_resize cap zeroed s = Val (grown cap s).
Proof. unfold grows, grown. destruct (tree_resize cap zeroed s); [reflexivity|discriminate..]. Qed.
(* With a delete before it, growing can lose elements: 4 is in the tree before
   the tree is moved to a larger zeroed buffer and not after. *)
Theorem C10_growing_after_delete_refuted :
  exists (cs : ncmds) rs s s', starts (empty 4) /\ legal_run num N.compare Red_black true (empty 4) cs /\
    run num N.compare Red_black cs (empty 4) = Val (rs, s) /\
    tree_resize 8 zeroed s = Val s' /\
    answer Red_black (Get 4) s = Some (RData (Some 4)) /\ answer Red_black (Get 4) s' = Some (RData None).
Proof.
  set (cs := [Do (Add 1); Do (Add 2); Do (Add 3); Do (Add 4); Do (Delete 1)]).
  set (s := after Red_black cs (empty 4)).
  exists cs, (replies Red_black cs (empty 4)), s, (grown 8 s).
  split; [apply empty_starts; reflexivity|]. split; [vm_compute; repeat split|].
  split; [apply runs_ok; vm_compute; reflexivity|]. split; [apply grows_ok; vm_compute; reflexivity|].
  split; vm_compute; reflexivity.
Qed.
(* Moving a full tree to a buffer of the same size panics. *)
Theorem C10_exact_fit_refuted :
  exists (cs : ncmds) rs s, starts (empty 4) /\ legal_run num N.compare Red_black true (empty 4) cs /\
    forallb clean_cmd cs = true /\
    run num N.compare Red_black cs (empty 4) = Val (rs, s) /\ len s = 4 /\
    tree_resize 4 zeroed s = Panic.
Proof.
  set (cs := [Do (Add 1); Do (Add 2); Do (Add 3); Do (Add 4)] : ncmds).
  exists cs, (replies Red_black cs (empty 4)), (after Red_black cs (empty 4)).
  split; [apply empty_starts; reflexivity|]. split; [vm_compute; repeat split|]. split; [reflexivity|].
  split; [apply runs_ok; vm_compute; reflexivity|]. split; vm_compute; reflexivity.
Qed.

(* --- What the zeroed buffer is needed for --- *)
(* In a buffer whose last node has a non-null right link (memory that was not
   zeroed), filling the tree and deleting uses that link as a pointer. *)
Theorem C08_dirty_buffer_refuted :
  exists (raw : N -> @cell N) s0 (cs : ncmds), tree_with_capacity 2 raw = Val s0 /\
    legal_run num N.compare Red_black true s0 cs /\ run num N.compare Red_black cs s0 = Fault.
Proof.
  exists (fun _ => mkCell 0 RED None None (Some 77)). eexists.
  exists ([Do (Add 1); Do (Add 2); Do (Delete 1)] : ncmds). split; [reflexivity|]. split; [vm_compute; repeat split|].
  vm_compute. reflexivity.
Qed.
(* Adding a key that is there already uses up a slot for good: len is not the
   number of elements, and the tree can be full with one element in it. *)
Theorem C08_duplicate_add_uses_a_slot :
  exists (cs : ncmds), starts (empty 2) /\ legal_run num N.compare Red_black true (empty 2) cs /\
    replies Red_black cs (empty 2) =
      [RSlot (inl 0); RSlot (inr Present); RNum 2; RList [5]; RSlot (inr NoSpace)].
Proof.
  exists ([Do (Add 5); Do (Add 5); Do Len; Do Dfs; Do (Add 6)] : ncmds).
  split; [apply empty_starts; reflexivity|]. split; vm_compute; repeat split.
Qed.

(* --- Cases the theorems speak of --- *)
Definition story : ncmds :=
  [Do (AddMany [50; 20; 80; 10; 30; 70; 90]); Do (Add 25); Grow 16 zeroed; Do (Add 35); Do (Get 35); Do (GetClosestIdx 33);
   Do (Delete 50); Do (DeleteIdx 1); Do (Next 30); Do (Prev 30); Do Dfs; Do (SetWithIdx 2 80); Do (NextIdx 2); Do (Add 20)].
Lemma find_pure (k : N) : forall n p (s s1 : @st N) q, find_node num N.compare n k p s = Val (q, s1) -> s1 = s.
Proof.
  induction n as [|n IH]; intros p s s1 q; cbn [find_node]; [discriminate|].
  destruct p as [i|]; [|unfold ret; congruence].
  unfold n_data, n_left, n_right, mbind, deref, ret. destruct (i <? s_cap s) eqn:Q; [|discriminate].
  destruct (k ?= num (c_data (s_at s i))); [congruence| |]; rewrite Q; apply IH.
Qed.
Lemma live_by (s : @st N) k i : answer Red_black (GetIdx k) s = Some (RIdx (Some i)) ->
  get_idx num N.compare k s = Val (Some i, s).
Proof.
  unfold answer, run_op, then_reply, mbind. destruct (get_idx num N.compare k s) as [[q s1]| | |] eqn:E1; try discriminate.
  cbn. intros Q. injection Q as ->. f_equal. f_equal.
  unfold get_idx, get_node, mbind, get_root, with_fuel in E1. eapply find_pure, E1.
Qed.
Definition stepped (c : @cmd N N) (s : @st N) : @st N :=
  match run_cmd num N.compare Red_black c s with Val (_, s') => s' | _ => s end.
Lemma legal_cons cl c cs s :
  (match c with Do o => legal num N.compare s o | Grow cap raw => cl = true /\ len s < cap /\ c_right (raw (cap - 1)) = None end) ->
  legal_run num N.compare Red_black (match c with Do o => cl && negb (deletes o) | Grow _ _ => cl end) (stepped c s) cs ->
  legal_run num N.compare Red_black cl s (c :: cs).
Proof.
  intros A B. cbn [legal_run]. split; [exact A|]. unfold stepped in B.
  destruct (run_cmd num N.compare Red_black c s) as [[r s']| | |]; auto.
Qed.
Example story_is_legal : starts (empty 9) /\ legal_run num N.compare Red_black true (empty 9) story.
Proof.
  split; [apply empty_starts; reflexivity|]. unfold story.
  repeat (apply legal_cons; [first [exact Logic.I | split; [reflexivity|split; [vm_compute; reflexivity|reflexivity]]
     | exists 20; apply live_by; vm_compute; reflexivity | exists 80; apply live_by; vm_compute; reflexivity
     | exists 80; split; [apply live_by; vm_compute; reflexivity|reflexivity]]|]).
  exact Logic.I.
Qed.
Example story_told : replies Red_black story (empty 9) =
  [RSlot (inl 6); RSlot (inl 7); RNum 16; RSlot (inl 8); RData (Some 35); RIdx (Some 4);
   RDone None; RDone None; RData (Some 35); RData (Some 25); RList [10; 25; 30; 35; 70; 80; 90];
   RBool true; RIdx (Some 6); RSlot (inl 1)].
Proof. vm_compute. reflexivity. Qed.
Definition growing : ncmds := [Do (AddMany [5; 3; 8; 1]); Do (Add 4); Do (Add 5); Grow 7 zeroed; Do (Add 9); Do (GetIdx 4)].
Example growing_is_clean : starts (empty 6) /\ legal_run num N.compare Red_black true (empty 6) growing /\
  forallb clean_cmd growing = true /\ runs Red_black growing (empty 6) = true /\
  len (after Red_black growing (empty 6)) = 7 /\
  legal num N.compare (after Red_black growing (empty 6)) (NextIdx 4) /\
  answer Red_black (NextIdx 4) (after Red_black growing (empty 6)) = Some (RIdx (Some 0)).
Proof.
  split; [apply empty_starts; reflexivity|]. split.
  { unfold growing.
    repeat (apply legal_cons; [first [exact Logic.I | split; [reflexivity|split; [vm_compute; reflexivity|reflexivity]]]|]).
    exact Logic.I. }
  split; [reflexivity|]. split; [vm_compute; reflexivity|]. split; [vm_compute; reflexivity|].
  split; [exists 4; apply live_by; vm_compute; reflexivity|]. vm_compute. reflexivity.
Qed.

Print Assumptions C08_tree_is_a_sorted_map.
Print Assumptions C08_answers_are_determined.
Print Assumptions C08_dirty_buffer_refuted.
Print Assumptions C08_duplicate_add_uses_a_slot.
Print Assumptions C09_balanced_without_deletes_partial.
Print Assumptions C09_delete_breaks_colours_refuted.
Print Assumptions C09_delete_breaks_height_refuted.
Print Assumptions C10_growing_keeps_the_contents_partial.
Print Assumptions C10_growing_after_delete_refuted.
Print Assumptions C10_exact_fit_refuted.
