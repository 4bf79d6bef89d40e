(** C36: configuration tables behave as a map. *)
From Verif Require Import Base.Prelude Base.Omap Config.Model Config.Spec.
Local Open Scope N_scope.

(** The array a reader of the system table sees. *)
Definition published (st : systab) : option (list entry) :=
  if st_ptr st =? 0 then Some [] else om_get (st_heap st) (st_ptr st).

(** An allocator returns a non-null address that is not in use. *)
Definition good_alloc (alloc : @omap (list entry) -> N) : Prop :=
  forall h, alloc h <> 0 /\ om_get h (alloc h) = None.

(** States reached by calls on an existing system table, with the calls made. *)
Inductive reach (alloc : @omap (list entry) -> N) : history -> systab -> Prop :=
| reach0 : reach alloc [] st_init
| reach_ok h g p st st' : reach alloc h st -> core_install alloc g p st = Ok st' -> reach alloc (h ++ [(g, p)]) st'
| reach_err h g p st e : reach alloc h st -> core_install alloc g p st = Err e -> reach alloc (h ++ [(g, p)]) st.

(** What holds of the state after any history. *)
Definition inv (st : systab) (arr : list entry) : Prop :=
  (arr = [] -> st = mkst 0 0 [] (0, 0) (st_sig st)) /\
  (arr <> [] -> st_ptr st <> 0 /\ st_cnt st = N.of_nat (length arr) /\ st_heap st = [(st_ptr st, arr)] /\
     st_crc st = (st_ptr st, st_cnt st)).

Lemma current_snoc : forall h g p g', current (h ++ [(g, p)]) g' =
  if g' =? g then (if p =? 0 then None else Some p) else current h g'.
Proof.
  intros. unfold current. rewrite rev_app_distr. cbn [rev app find fst]. rewrite N.eqb_sym.
  destruct (g' =? g); [|reflexivity]. destruct p; reflexivity.
Qed.

Lemma exists_in : forall g (l : list entry), exists_entry g l = true <-> In g (map fst l).
Proof.
  intros. unfold exists_entry. rewrite existsb_exists, in_map_iff. split.
  - intros (x & I & E). exists x. apply N.eqb_eq in E. auto.
  - intros (x & E & I). exists x. split; [exact I|]. apply N.eqb_eq. exact E.
Qed.

Lemma modify_keys : forall g p l, map fst (modify_first g p l) = map fst l.
Proof. induction l as [|[g' p'] l IH]; [reflexivity|]. cbn [modify_first]. destruct (g' =? g); cbn [map fst]; f_equal; auto. Qed.

Lemma modify_in : forall g p l g' p', NoDup (map fst l) ->
  In (g', p') (modify_first g p l) <-> (g' <> g /\ In (g', p') l) \/ (g' = g /\ p' = p /\ In g (map fst l)).
Proof.
  induction l as [|[g0 p0] l IH]; intros g' p' ND; cbn [modify_first map fst In]; [tauto|].
  cbn [map fst] in ND. inversion ND as [|? ? NI ND']; subst.
  destruct (g0 =? g) eqn:E.
  - apply N.eqb_eq in E. subst g0. cbn [In]. split.
    + intros [[= <- <-]|H]; [right; auto|]. left. split; [|auto]. intros ->. apply NI.
      apply in_map_iff. exists (g, p'). auto.
    + intros [[N [[= <- <-]|H]]|(-> & -> & _)]; [congruence|auto|auto].
  - apply N.eqb_neq in E. cbn [In]. rewrite IH by exact ND'. split.
    + intros [[= <- <-]|[[N H]|(-> & -> & H)]]; [left; auto|left; auto|right; auto].
    + intros [[N [H|H]]|(-> & -> & [H|H])]; [auto|auto|congruence|auto].
Qed.

Lemma nodup_app_single : forall (l : list N) x, NoDup l -> ~ In x l -> NoDup (l ++ [x]).
Proof.
  intros l x H N. apply NoDup_rev in H. rewrite <- (rev_involutive (l ++ [x])). apply NoDup_rev.
  rewrite rev_app_distr. cbn [rev app]. constructor; [rewrite <- in_rev; exact N|exact H].
Qed.

Lemma nodup_filter_keys : forall (f : entry -> bool) l, NoDup (map fst l) -> NoDup (map fst (filter f l)).
Proof.
  induction l as [|e l IH]; intro H; [constructor|]. cbn [map] in H. inversion H; subst. cbn [filter].
  destruct (f e); auto. cbn [map]. constructor; auto. rewrite in_map_iff in *. intros (x & E & I).
  apply filter_In in I. destruct I. eauto.
Qed.

(** The new contents are right for the extended history. *)
Lemma new_table_spec : forall h (arr : list entry) g p, table_of h arr ->
  match new_table g p (match arr with [] => None | _ => Some arr end) with
  | Some nt => table_of (h ++ [(g, p)]) nt /\
      (p <> 0 -> In g (map fst arr) -> map fst nt = map fst arr) /\
      (p <> 0 -> ~ In g (map fst arr) -> nt = arr ++ [(g, p)]) /\
      (p = 0 -> nt = filter (fun e => negb (fst e =? g)) arr)
  | None => p = 0 /\ current h g = None /\ table_of (h ++ [(g, p)]) arr
  end.
Proof.
  intros h arr g p [ND T].
  assert (K : In g (map fst arr) <-> current h g <> None).
  { split.
    - intro I. apply in_map_iff in I. destruct I as ((g0 & p0) & E & I). cbn [fst] in E. subst g0.
      apply T in I. congruence.
    - intro N. destruct (current h g) as [q|] eqn:Q; [|congruence]. apply T in Q.
      apply in_map_iff. exists (g, q). auto. }
  assert (W : new_table g p (match arr with [] => None | _ => Some arr end) = new_table g p (Some arr)).
  { destruct arr; [|reflexivity]. cbn [new_table exists_entry existsb app]. destruct (negb (p =? 0)); reflexivity. }
  rewrite W. cbn [new_table]. clear W. destruct (p =? 0) eqn:P; cbn [negb].
  - apply N.eqb_eq in P. subst p. destruct (exists_entry g arr) eqn:X.
    + split; [|repeat split; intros; congruence]. split; [apply nodup_filter_keys; exact ND|].
      intros g' p'. rewrite current_snoc, filter_In, T. cbn [fst]. change (0 =? 0) with true. cbn iota.
      destruct (g' =? g); cbn [negb]; split; intros; try tauto; try (destruct H; discriminate). discriminate.
    + split; [reflexivity|]. assert (C : current h g = None).
      { destruct (current h g) eqn:Q; [|reflexivity]. exfalso.
        assert (I : In g (map fst arr)) by (apply K; congruence). apply exists_in in I. congruence. }
      split; [exact C|]. split; [exact ND|]. intros g' p'. rewrite current_snoc, T.
      change (0 =? 0) with true. cbn iota.
      destruct (g' =? g) eqn:E; [|tauto]. apply N.eqb_eq in E. subst g'. rewrite C. split; discriminate.
  - apply N.eqb_neq in P. destruct (exists_entry g arr) eqn:X.
    + apply exists_in in X. split; [|repeat split; intros; try congruence; try tauto; apply modify_keys].
      split; [rewrite modify_keys; exact ND|]. intros g' p'. rewrite current_snoc, modify_in by exact ND.
      apply N.eqb_neq in P. rewrite P. destruct (g' =? g) eqn:E.
      * apply N.eqb_eq in E. subst g'. split; [intros [[N _]|(_ & -> & _)]; [congruence|reflexivity]|].
        intros [= <-]. right. auto.
      * apply N.eqb_neq in E. rewrite T. tauto.
    + assert (NI : ~ In g (map fst arr)) by (rewrite <- exists_in; congruence).
      split; [|repeat split; intros; try congruence; tauto].
      split; [rewrite map_app; apply nodup_app_single; assumption|].
      intros g' p'. rewrite in_app_iff, T, current_snoc. apply N.eqb_neq in P. rewrite P. cbn [In].
      destruct (g' =? g) eqn:E.
      * apply N.eqb_eq in E. subst g'. destruct (current h g) eqn:Q; [exfalso; apply NI; apply K; congruence|].
        split; [intros [?|[[= ->]|[]]]; [discriminate|reflexivity]|]. intros [= ->]. auto.
      * apply N.eqb_neq in E. split; [intros [?|[[= -> ->]|[]]]; [assumption|congruence]|auto].
Qed.

Lemma core_install_inv : forall alloc h g p st arr, good_alloc alloc -> inv st arr -> table_of h arr ->
  match core_install alloc g p st with
  | Ok st' => exists nt, inv st' nt /\ table_of (h ++ [(g, p)]) nt /\ st_sig st' = st_sig st ++ [g] /\
      st_crc st' = (st_ptr st', st_cnt st') /\
      (p <> 0 -> In g (map fst arr) -> map fst nt = map fst arr) /\
      (p <> 0 -> ~ In g (map fst arr) -> nt = arr ++ [(g, p)]) /\
      (p = 0 -> nt = filter (fun e => negb (fst e =? g)) arr)
  | Err e => e = NotFound /\ p = 0 /\ current h g = None /\ table_of (h ++ [(g, p)]) arr
  | Panic => False
  end.
Proof.
  intros alloc h g p st arr GA [I0 I1] T. pose proof (new_table_spec h arr g p T) as NT.
  unfold core_install.
  assert (FIN : forall nt heap, heap = [] ->
     let '(ptr, cnt, heap) :=
        match nt with [] => (0, 0, heap) | _ :: _ => let a := alloc heap in (a, N.of_nat (length nt), om_set heap a nt) end in
     inv (mkst ptr cnt heap (ptr, cnt) (st_sig st ++ [g])) nt).
  { intros nt heap ->. destruct nt as [|e nt]; cbv zeta; split; intro; try congruence; [reflexivity|].
    destruct (GA []) as [A0 A1]. cbn [st_ptr st_cnt st_heap st_crc om_set]. auto. }
  destruct arr as [|e0 arr0]; cbv beta iota in NT.
  - rewrite (I0 eq_refl). cbn [st_ptr st_cnt st_heap st_crc st_sig].
    change (0 =? 0) with true. cbn iota. cbn [bind].
    destruct (new_table g p None) as [nt|]; [|destruct NT as (N1 & N2 & N3); auto].
    specialize (FIN nt [] eq_refl).
    destruct NT as (N1 & N2 & N3 & N4).
    destruct nt as [|e nt]; cbv zeta in *; cbn iota beta in *; eexists; (split; [exact FIN|]); auto 10.
  - destruct (I1 ltac:(discriminate)) as (P & C & H & R). rewrite H. apply N.eqb_neq in P. rewrite P.
    cbn [om_get]. rewrite N.eqb_refl, C, N.eqb_refl. cbn [bind].
    destruct (new_table g p (Some (e0 :: arr0))) as [nt|]; [|destruct NT as (N1 & N2 & N3); auto].
    cbn [om_del]. rewrite N.eqb_refl. specialize (FIN nt [] eq_refl).
    destruct NT as (N1 & N2 & N3 & N4).
    destruct nt as [|e nt]; cbv zeta in *; cbn iota beta in *; eexists; (split; [exact FIN|]); auto 10.
Qed.

Lemma reach_inv : forall alloc h st, good_alloc alloc -> reach alloc h st ->
  exists arr, inv st arr /\ table_of h arr.
Proof.
  intros alloc h st GA R. induction R as [|h g p st st' R IH E|h g p st e R IH E].
  - exists []. split; [split; [reflexivity|congruence]|]. split; [constructor|].
    intros. split; [intros []|discriminate].
  - destruct IH as (arr & I & T). pose proof (core_install_inv alloc h g p st arr GA I T) as C. rewrite E in C.
    destruct C as (nt & A & B & _). eauto.
  - destruct IH as (arr & I & T). pose proof (core_install_inv alloc h g p st arr GA I T) as C. rewrite E in C.
    destruct C as (_ & _ & _ & B). eauto.
Qed.

Lemma published_inv : forall st arr, inv st arr -> published st = Some arr /\
  st_cnt st = N.of_nat (length arr) /\ (st_ptr st = 0 <-> arr = []) /\
  st_heap st = (if st_ptr st =? 0 then [] else [(st_ptr st, arr)]) /\ st_crc st = (st_ptr st, st_cnt st).
Proof.
  intros st [|e arr] [I0 I1].
  - rewrite (I0 eq_refl). unfold published. cbn. repeat apply conj; auto; tauto.
  - destruct (I1 ltac:(discriminate)) as (P & C & H & R). unfold published. rewrite H.
    pose proof P as P'. apply N.eqb_neq in P'. rewrite P'. cbn [om_get]. rewrite N.eqb_refl.
    repeat apply conj; auto; intros; try congruence.
Qed.

(** After any history of calls the published array holds exactly one entry per GUID whose last call
    installed a table, the count is its length, the pointer is null exactly when it is empty, and the
    header checksum covers the values in the table. *)
Theorem config_table_is_map : forall alloc h st, good_alloc alloc -> reach alloc h st ->
  exists arr, published st = Some arr /\ table_of h arr /\ st_cnt st = N.of_nat (length arr) /\
    (st_ptr st = 0 <-> arr = []) /\ st_crc st = (st_ptr st, st_cnt st).
Proof.
  intros alloc h st GA R. destruct (reach_inv alloc h st GA R) as (arr & I & T).
  pose proof (published_inv st arr I) as (A & B & C & D & E). exists arr. auto 10.
Qed.

(** Exactly one box is live while the table is non-empty and none otherwise: nothing leaks and nothing is
    freed twice. *)
Theorem config_table_no_leak : forall alloc h st, good_alloc alloc -> reach alloc h st ->
  st_heap st = match published st with Some [] => [] | Some arr => [(st_ptr st, arr)] | None => [] end.
Proof.
  intros alloc h st GA R. destruct (reach_inv alloc h st GA R) as (arr & I & T).
  pose proof (published_inv st arr I) as (A & B & C & D & E). rewrite A, D.
  destruct (st_ptr st =? 0) eqn:P.
  - apply N.eqb_eq in P. apply C in P. rewrite P. reflexivity.
  - apply N.eqb_neq in P. destruct arr; [exfalso; apply P; apply C; reflexivity|reflexivity].
Qed.

(** One call: it never panics; deleting an absent GUID reports NOT_FOUND and changes nothing; any other
    call succeeds, signals the GUID's event group once and nothing else, and
    - replacing keeps every GUID in its place,
    - adding puts the new entry last,
    - deleting removes that entry and keeps the others in order. *)
Theorem config_table_call : forall alloc h st g p arr, good_alloc alloc -> reach alloc h st -> published st = Some arr ->
  match core_install alloc g p st with
  | Ok st' => (p <> 0 \/ current h g <> None) /\ exists arr', published st' = Some arr' /\
      st_sig st' = st_sig st ++ [g] /\
      (p <> 0 -> In g (map fst arr) -> map fst arr' = map fst arr) /\
      (p <> 0 -> ~ In g (map fst arr) -> arr' = arr ++ [(g, p)]) /\
      (p = 0 -> arr' = filter (fun e => negb (fst e =? g)) arr)
  | Err e => e = NotFound /\ p = 0 /\ current h g = None
  | Panic => False
  end.
Proof.
  intros alloc h st g p arr GA R P. destruct (reach_inv alloc h st GA R) as (arr1 & I & T).
  pose proof (published_inv st arr1 I) as (A & _). rewrite P in A. injection A as <-.
  pose proof (core_install_inv alloc h g p st arr GA I T) as C.
  destruct (core_install alloc g p st) as [st'|e|] eqn:Q; [|tauto|exact C].
  destruct C as (nt & C1 & C2 & C3 & C4 & C5 & C6 & C7). split.
  - destruct (N.eq_dec p 0) as [->|N]; [|auto]. right. intro X.
    pose proof (new_table_spec h arr g 0 T) as NT.
    assert (NI : exists_entry g arr = false).
    { destruct (exists_entry g arr) eqn:EX; [|reflexivity]. apply exists_in in EX. apply in_map_iff in EX.
      destruct EX as ((g0 & p0) & E & IN). cbn [fst] in E. subst g0. apply T in IN. congruence. }
    destruct I as [I0 I1]. destruct arr as [|e0 arr0].
    + unfold core_install in Q. rewrite (I0 eq_refl) in Q. cbn in Q. discriminate Q.
    + destruct (I1 ltac:(discriminate)) as (P0 & CC & H & RR). unfold core_install in Q. rewrite H in Q.
      apply N.eqb_neq in P0. rewrite P0 in Q. cbn [om_get] in Q. rewrite N.eqb_refl, CC, N.eqb_refl in Q.
      cbn [bind new_table] in Q. change (negb (0 =? 0)) with false in Q. cbn iota in Q. rewrite NI in Q. discriminate Q.
  - exists nt. pose proof (published_inv st' nt C1) as (A & _). auto 10.
Qed.

(** The service entry: a null GUID pointer or a missing system table is refused without effect, and
    otherwise the service is the operation above. *)
Theorem config_table_service : forall alloc gp p sys,
  install_configuration_table alloc gp p sys =
    match gp, sys with
    | None, _ => Err InvalidParameter
    | Some _, None => Err NotFound
    | Some g, Some st =>
        match core_install alloc g p st with Ok st' => Ok (Some st') | Err e => Err e | Panic => Panic end
    end /\
  (is_ok (install_configuration_table alloc gp p sys) = false -> call alloc gp p sys = sys).
Proof.
  intros alloc [g|] p [st|]; unfold call, install_configuration_table; cbn; try (split; [reflexivity|auto]; fail).
  destruct (core_install alloc g p st); cbn; auto. split; [reflexivity|discriminate].
Qed.

(** ** Witnesses *)
(** An allocator that always picks an address above every live one is good. *)
Definition ex_alloc (h : @omap (list entry)) : N := 4096 + fold_right (fun e a => N.max (fst e) a) 0 h.
Example ex_alloc_good : good_alloc ex_alloc.
Proof.
  intro h. split; [unfold ex_alloc; lia|]. apply om_get_none. unfold om_keys, ex_alloc. rewrite in_map_iff.
  intros (e & E & I).
  assert (B : forall h' : @omap (list entry), In e h' -> fst e <= fold_right (fun e a => N.max (fst e) a) 0 h').
  { clear. induction h' as [|x h' IH]; [intros []|]. cbn [In fold_right]. intros [->|I]; [lia|]. specialize (IH I). lia. }
  specialize (B h I). lia.
Qed.
Definition ex_calls : history := [(7, 70); (8, 80); (9, 90); (8, 81); (7, 0); (5, 0)].
Fixpoint run_calls (st : systab) (h : history) : systab :=
  match h with
  | [] => st
  | (g, p) :: t => match core_install ex_alloc g p st with Ok st' => run_calls st' t | _ => run_calls st t end
  end.
Example ex_config_state : published (run_calls st_init ex_calls) = Some [(8, 81); (9, 90)] /\
  st_sig (run_calls st_init ex_calls) = [7; 8; 9; 8; 7].
Proof. split; vm_compute; reflexivity. Qed.
Example ex_config_reach : reach ex_alloc ex_calls (run_calls st_init ex_calls).
Proof.
  assert (G : forall h h0 st0, reach ex_alloc h0 st0 -> reach ex_alloc (h0 ++ h) (run_calls st0 h)).
  { induction h as [|[g p] h IH]; intros h0 st0 R; [rewrite app_nil_r; exact R|].
    cbn [run_calls]. change ((g, p) :: h) with ([(g, p)] ++ h). rewrite app_assoc.
    destruct (core_install ex_alloc g p st0) as [st'|e|] eqn:E.
    - apply IH. eapply reach_ok; eauto.
    - apply IH. eapply reach_err; eauto.
    - exfalso. destruct (reach_inv ex_alloc h0 st0 ex_alloc_good R) as (arr & I & T).
      pose proof (core_install_inv ex_alloc h0 g p st0 arr ex_alloc_good I T) as C. rewrite E in C. exact C. }
  apply (G ex_calls [] st_init). apply reach0.
Qed.

Print Assumptions config_table_is_map.
Print Assumptions config_table_no_leak.
Print Assumptions config_table_call.
Print Assumptions config_table_service.
