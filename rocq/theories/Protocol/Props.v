(** Theorems about the protocol database and services (C18-C21, C48). *)
From Coq Require Import Sorted Permutation.
From Verif Require Import Base.Prelude Base.Omap Protocol.Model Protocol.Spec Protocol.Proofs Protocol.Order
  Protocol.Usage Protocol.Notify Protocol.Services Protocol.SvcProofs.
Local Open Scope N_scope.

Lemma prun_hist ops : forall d tr, hist tr d -> hist (fst (prun d tr ops)) (snd (prun d tr ops)).
Proof.
  induction ops as [|o t IH]; intros d tr H; cbn [prun]; [exact H|].
  destruct (pstep d o) as [r d'] eqn:E. apply IH. econstructor; eauto.
Qed.
(** A concrete history used by the examples: two handles, two protocols, a driver open, a registration. *)
Definition demo_ops : list pop :=
  [OInstall None 7 100; ORegister 8 55; OInstall None 7 200; OInstall (Some 1) 8 300; OOpen 1 7 (Some 2) (Some 1) 0x10;
   OOpen 1 8 (Some 2) None 0x2; OOpen 1 7 (Some 2) (Some 2) 0x8].
Definition demo : list pcall * pdb := prun (pdb_new 1 10) [] demo_ops.
Lemma demo_hist : hist (fst demo) (snd demo).
Proof. apply prun_hist, hist_new. Qed.

(** * C18 *)

Theorem protocol_get_interface tr d h g :
  hist tr d ->
  match installed tr h g with
  | Some i => pstep d (OGetInterface h g) = (OutIface i, d)
  | None => (live tr h -> pstep d (OGetInterface h g) = (OutErr NotFound, d)) /\
            (~ live tr h -> pstep d (OGetInterface h g) = (OutErr InvalidParameter, d))
  end.
Proof.
  intros H. cbn [pstep]. unfold get_interface, validate, om_mem. pose proof (hist_iface _ _ H h g) as E.
  pose proof (hist_live _ _ h H) as L. destruct (installed tr h g) as [i|] eqn:Ei.
  - unfold get_inst in *. destruct (om_get (p_handles d) h); [|discriminate].
    destruct (om_get (h_prots h0) g); [|discriminate]. injection E as ->. reflexivity.
  - destruct (get_inst d h g) eqn:G; [discriminate|]. split; intros X.
    + apply L in X. destruct (om_get (p_handles d) h); [reflexivity|congruence].
    + destruct (om_get (p_handles d) h); [|reflexivity]. exfalso. apply X, L. discriminate.
Qed.
Example protocol_get_interface_ex :
  installed (fst demo) 1 8 = Some 300 /\ pstep (snd demo) (OGetInterface 1 8) = (OutIface 300, snd demo) /\
  pstep (snd demo) (OGetInterface 2 8) = (OutErr NotFound, snd demo) /\
  pstep (snd demo) (OGetInterface 5 8) = (OutErr InvalidParameter, snd demo).
Proof. repeat apply conj; vm_compute; reflexivity. Qed.

Theorem protocol_handle_valid tr d h :
  hist tr d -> (pstep d (OValidate h) = (OutUnit, d) <-> live tr h) /\
               (pstep d (OValidate h) = (OutErr InvalidParameter, d) <-> ~ live tr h).
Proof.
  intros H. cbn [pstep]. unfold validate, om_mem. pose proof (hist_live _ _ h H) as L.
  destruct (om_get (p_handles d) h); split; split; intros X; try discriminate; try reflexivity; try (intros Y);
    try (apply L; discriminate); try (exfalso; apply X, L; discriminate); apply L in X || apply L in Y; congruence.
Qed.

Theorem protocol_null_never_live tr d : hist tr d -> ~ live tr 0.
Proof. intros H L. apply (hist_live _ _ _ H) in L. apply L, (pv_nz _ (hist_pinv _ _ H)). Qed.

Theorem protocol_locate_handles tr d g :
  hist tr d ->
  match pstep d (OLocate g) with
  | (OutHandles l, d') => d' = d /\ l <> [] /\ NoDup l /\ (forall h, In h l <-> has_protocol tr h g) /\
                          StronglySorted (created_before tr) l
  | (OutErr e, d') => d' = d /\ e = NotFound /\ forall h, ~ has_protocol tr h g
  | _ => False
  end.
Proof.
  intros H. cbn [pstep]. destruct (locate_list tr d g H) as (A & B & C). unfold locate_handles.
  fold (selected g). change (filter (fun kh : N * hnd => _) (p_handles d)) with (filter (selected g) (p_handles d)).
  destruct (filter (selected g) (p_handles d)) as [|x l] eqn:E.
  - split; [reflexivity|]. split; [reflexivity|]. intros h X. apply B in X. exact X.
  - split; [reflexivity|]. split; [|auto]. intros X. apply map_eq_nil in X.
    pose proof (sort_by_perm (map (fun kh : N * hnd => (fst kh, h_order (snd kh))) (x :: l))) as P. rewrite X in P.
    apply Permutation_nil in P. discriminate.
Qed.
Example protocol_locate_handles_ex :
  pstep (snd demo) (OLocate (Some 7)) = (OutHandles [1; 2], snd demo) /\ has_protocol (fst demo) 2 (Some 7) /\
  created_before (fst demo) 1 2 /\ pstep (snd demo) (OLocate (Some 9)) = (OutErr NotFound, snd demo).
Proof.
  split; [vm_compute; reflexivity|]. split; [exists 200; vm_compute; reflexivity|].
  split; [vm_compute; lia|vm_compute; reflexivity].
Qed.

(** The service form finds the interface on the live handle with the smallest value. *)
Lemma find_inst_spec g hs : om_sorted hs ->
  match find_inst hs g with
  | Some it => exists h hd, om_get hs h = Some hd /\ om_get (h_prots hd) g = Some it /\
      forall h' hd' it', om_get hs h' = Some hd' -> om_get (h_prots hd') g = Some it' -> h <= h'
  | None => forall h hd, om_get hs h = Some hd -> om_get (h_prots hd) g = None
  end.
Proof.
  intros Hs. assert (A : forall h hd, In (h, hd) hs <-> om_get hs h = Some hd).
  { intros h hd. split; [apply om_in_get, Hs|apply om_get_in]. }
  assert (B : match find_inst hs g with
    | Some it => exists h hd, In (h, hd) hs /\ om_get (h_prots hd) g = Some it /\
        forall h' hd' it', In (h', hd') hs -> om_get (h_prots hd') g = Some it' -> h <= h'
    | None => forall h hd, In (h, hd) hs -> om_get (h_prots hd) g = None
    end).
  { clear A. induction hs as [|[k hd] t IH]; cbn [find_inst]; [intros h hd []|].
    assert (Ht : om_sorted t) by (eapply om_sorted_tl; exact Hs). specialize (IH Ht).
    destruct (om_get (h_prots hd) g) as [it|] eqn:E.
    - exists k, hd. split; [left; reflexivity|]. split; [exact E|]. intros h' hd' it' [X|X] _.
      + injection X as <- <-. lia.
      + assert (k < h'); [|lia]. eapply om_sorted_hd; [exact Hs|]. apply in_map_iff. exists (h', hd'). auto.
    - destruct (find_inst t g) as [it|].
      + destruct IH as (h & hd2 & I1 & I2 & I3). exists h, hd2. split; [right; exact I1|]. split; [exact I2|].
        intros h' hd' it' [X|X] Y; [injection X as <- <-; congruence|eauto].
      + intros h hd2 [X|X]; [injection X as <- <-; exact E|eauto]. }
  destruct (find_inst hs g).
  - destruct B as (h & hd & I1 & I2 & I3). exists h, hd. split; [apply A, I1|]. split; [exact I2|].
    intros. eapply I3; eauto. apply A. eassumption.
  - intros. eapply B, A. eassumption.
Qed.

Theorem protocol_locate_protocol tr d g :
  hist tr d ->
  match pstep d (OLocateProtocol g) with
  | (OutIface i, d') => d' = d /\ exists h, installed tr h g = Some i /\ forall h' i', installed tr h' g = Some i' -> h <= h'
  | (OutErr e, d') => d' = d /\ e = NotFound /\ forall h, installed tr h g = None
  | _ => False
  end.
Proof.
  intros H. cbn [pstep]. unfold locate_protocol. pose proof (find_inst_spec g _ (pv_hs _ (hist_pinv _ _ H))) as F.
  destruct (find_inst (p_handles d) g) as [it|].
  - destruct F as (h & hd & F1 & F2 & F3). split; [reflexivity|]. exists h. split.
    + rewrite <- (hist_iface _ _ H). unfold get_inst. rewrite F1, F2. reflexivity.
    + intros h' i'. rewrite <- (hist_iface _ _ H). unfold get_inst. intros X.
      destruct (om_get (p_handles d) h') as [hd'|] eqn:E'; [|discriminate].
      destruct (om_get (h_prots hd') g) as [it'|] eqn:E2; [|discriminate]. eapply F3; eauto.
  - split; [reflexivity|]. split; [reflexivity|]. intros h. rewrite <- (hist_iface _ _ H). unfold get_inst.
    destruct (om_get (p_handles d) h) as [hd|] eqn:E; [|reflexivity]. rewrite (F _ _ E). reflexivity.
Qed.
Example protocol_locate_protocol_ex : pstep (snd demo) (OLocateProtocol 7) = (OutIface 100, snd demo).
Proof. vm_compute. reflexivity. Qed.

Theorem protocol_new_handle tr d g i h evs d' :
  hist tr d -> pstep d (OInstall None g i) = (OutHandle h evs, d') ->
  h <> 0 /\ ~ live tr h /\ forall h' g', installed ((OInstall None g i, OutHandle h evs) :: tr) h' g' =
     if (h' =? h) && (g' =? g) then Some i else installed tr h' g'.
Proof.
  intros H E. destruct (install_effect _ _ _ _ _ _ (hist_pinv _ _ H) E) as [(key & evs' & E' & He)|(_ & [(e & X)|(_ & X)])];
    [|discriminate..]. injection E' as -> ->. destruct He as [_ _ _ _ _ _ (ord & ps & _ & Hz & Hk & _)].
  split; [exact Hz|]. split; [|reflexivity]. intros L. apply (hist_live _ _ _ H) in L. congruence.
Qed.

(** The outcome of every install: a new handle, or the given live handle without the protocol. *)
Theorem protocol_install_outcome tr d h g i r d' :
  hist tr d -> pstep d (OInstall h g i) = (r, d') ->
  match h with
  | None => (exists key evs, r = OutHandle key evs) \/ (r = OutHang /\ d' = d)
  | Some h =>
    (live tr h /\ installed tr h g = None /\ exists evs, r = OutHandle h evs) \/
    ((~ live tr h \/ installed tr h g <> None) /\ r = OutErr InvalidParameter /\ d' = d)
  end.
Proof.
  intros H E. pose proof (install_effect _ _ _ _ _ _ (hist_pinv _ _ H) E) as X. destruct h as [h|].
  - pose proof (hist_live _ _ h H) as L. pose proof (hist_iface _ _ H h g) as I.
    cbn [pstep] in E. unfold install, validate, om_mem in E. unfold get_inst in I.
    destruct (om_get (p_handles d) h) as [hd|] eqn:G.
    + unfold install_on in E. rewrite G in E. unfold om_mem in E. destruct (om_get (h_prots hd) g) as [it|] eqn:G2.
      * injection E as <- <-. right. split; [right; rewrite <- I; discriminate|]. split; reflexivity.
      * left. split; [apply L; discriminate|]. split; [symmetry; exact I|]. cbn in E. injection E as <- _. eauto.
    + injection E as <- <-. right. split; [left; intros Y; apply L in Y; congruence|]. split; reflexivity.
  - destruct X as [(key & evs & -> & _)|(-> & [(e & ->)|(_ & ->)])]; [left; eauto| |right; auto].
    exfalso. cbn [pstep] in E. unfold install in E. destruct (new_key d) as [[k nh]|]; [|discriminate].
    unfold install_on in E. cbn [p_handles] in E. rewrite om_get_set, N.eqb_refl in E. discriminate.
Qed.
Example protocol_install_outcome_ex :
  fst (pstep (snd demo) (OInstall (Some 1) 7 5)) = OutErr InvalidParameter /\
  fst (pstep (snd demo) (OInstall (Some 2) 8 5)) = OutHandle 2 [55] /\
  fst (pstep (snd demo) (OInstall (Some 9) 8 5)) = OutErr InvalidParameter /\
  fst (pstep (snd demo) (OInstall None 8 5)) = OutHandle 3 [55].
Proof. repeat apply conj; vm_compute; reflexivity. Qed.

Theorem protocol_protocols_on_handle tr d h :
  hist tr d ->
  (live tr h -> exists l, pstep d (OProtocols h) = (OutGuids l, d) /\ NoDup l /\
                 forall g, In g l <-> exists i, installed tr h g = Some i) /\
  (~ live tr h -> pstep d (OProtocols h) = (OutErr InvalidParameter, d)).
Proof.
  intros H. cbn [pstep]. unfold protocols_on. pose proof (hist_live _ _ h H) as L. split; intros X.
  - apply L in X. destruct (om_get (p_handles d) h) as [hd|] eqn:G; [|congruence].
    destruct (pv_ps _ (hist_pinv _ _ H) _ _ G) as [Hs _].
    exists (om_keys (h_prots hd)). split; [reflexivity|]. split; [apply om_keys_nodup, Hs|].
    intros g. pose proof (hist_iface _ _ H h g) as I. unfold get_inst in I. rewrite G in I. rewrite <- om_mem_key. unfold om_mem.
    rewrite <- I. destruct (om_get (h_prots hd) g) as [it|]; split; intros Y; try discriminate; try reflexivity.
    + exists (i_iface it). reflexivity.
    + destruct Y as (i & Y). discriminate.
  - destruct (om_get (p_handles d) h); [|reflexivity]. exfalso. apply X, L. discriminate.
Qed.

Lemma fold_set_mem l : forall (m : omap unit) g, om_sorted m ->
  let m' := fold_left (fun s g => om_set s g tt) l m in
  om_sorted m' /\ (om_mem m' g = true <-> In g l \/ om_mem m g = true).
Proof.
  induction l as [|x t IH]; intros m g Hs; cbn [fold_left]; [split; [exact Hs|cbn; tauto]|].
  destruct (IH (om_set m x tt) g (om_sorted_set _ _ _ Hs)) as [A B]. split; [exact A|]. rewrite B. unfold om_mem at 1.
  rewrite om_get_set. cbn [In]. destruct (g =? x) eqn:E.
  - assert (g = x) by lia. subst. tauto.
  - unfold om_mem. split; [tauto|]. intros [[X|X]|X]; [lia|tauto|tauto].
Qed.

Theorem protocol_registered_protocols tr d :
  hist tr d -> exists l, pstep d ORegistered = (OutGuids l, d) /\ NoDup l /\
    forall g, In g l <-> exists h i, installed tr h g = Some i.
Proof.
  intros H. cbn [pstep]. unfold registered_protocols.
  set (gs := flat_map (fun kh : N * hnd => om_keys (h_prots (snd kh))) (p_handles d)).
  exists (om_keys (fold_left (fun s g => om_set s g tt) gs [])). split; [reflexivity|].
  assert (S0 : @om_sorted unit []) by constructor.
  split; [apply om_keys_nodup; apply (fold_set_mem gs [] 0 S0)|]. intros g.
  rewrite <- om_mem_key. destruct (fold_set_mem gs [] g S0) as [_ ->].
  assert (Hg : In g gs <-> exists h i, installed tr h g = Some i).
  { unfold gs. rewrite in_flat_map. split.
    - intros ([k hd] & Hin & Hk). cbn [snd] in Hk. apply om_in_get in Hin; [|apply (hist_pinv _ _ H)].
      rewrite <- om_mem_key in Hk. unfold om_mem in Hk. destruct (om_get (h_prots hd) g) as [it|] eqn:G; [|discriminate].
      exists k, (i_iface it). rewrite <- (hist_iface _ _ H). unfold get_inst. rewrite Hin, G. reflexivity.
    - intros (h & i & Hi). rewrite <- (hist_iface _ _ H) in Hi. unfold get_inst in Hi.
      destruct (om_get (p_handles d) h) as [hd|] eqn:G; [|discriminate].
      exists (h, hd). split; [apply om_get_in, G|]. cbn [snd]. rewrite <- om_mem_key. unfold om_mem.
      destruct (om_get (h_prots hd) g); [reflexivity|discriminate]. }
  rewrite Hg. unfold om_mem. cbn. split; [intros [X|X]; [exact X|discriminate]|auto].
Qed.

(** Start-up: the ten well-known handles are 1..10, whatever the seed, and no assertion fires. *)
Theorem protocol_init seed fuel :
  exists tr d, init_protocol_db (pdb_new seed fuel) = Some d /\ hist tr d /\
    forall h, live tr h <-> 1 <= h <= 10.
Proof.
  set (ops := repeat (OInstall None WELL_KNOWN_GUID 0) 10 ++ [OHashing]).
  exists (fst (prun (pdb_new seed fuel) [] ops)), (snd (prun (pdb_new seed fuel) [] ops)).
  pose proof (prun_hist ops _ _ (hist_new seed fuel)) as H. split; [vm_compute; reflexivity|]. split; [exact H|].
  intros h. rewrite <- (hist_live _ _ h H).
  assert (E : p_handles (snd (prun (pdb_new seed fuel) [] ops)) =
    map (fun k => (k, MkH (k + 1) [(WELL_KNOWN_GUID, MkI 0 false false [])])) [1;2;3;4;5;6;7;8;9;10]) by (vm_compute; reflexivity).
  rewrite E. cbn [map om_get].
  repeat match goal with |- context [h =? ?n] => destruct (h =? n) eqn:? end; split; intros; try lia; try congruence; try discriminate.
Qed.

(** * C19 *)

Lemma one_of_filter {A} (p : A -> bool) l x y : (length (filter p l) <= 1)%nat -> In x l -> In y l -> p x = true -> p y = true -> x = y.
Proof.
  intros Hl Hx Hy Px Py. assert (In x (filter p l)) by (apply filter_In; auto). assert (In y (filter p l)) by (apply filter_In; auto).
  destruct (filter p l) as [|z [|? ?]]; cbn in *; try lia; try contradiction. destruct H as [<-|[]], H0 as [<-|[]]. reflexivity.
Qed.

Lemma held_usage tr d h g a c attr : hist tr d -> held tr h g a c attr ->
  exists it u, get_inst d h g = Some it /\ inst_ok h it /\ In u (i_usage it) /\ u_agent u = Some a /\ u_ctrl u = c /\ u_attr u = attr.
Proof.
  intros H Hh. destruct (hist_use _ _ H) as [A B]. destruct (get_inst d h g) as [it|] eqn:G.
  - destruct (A _ _ _ G) as [Ok T]. unfold held in Hh. rewrite T in Hh. apply (total_pos _ _ _ _ h (io_use _ _ Ok)) in Hh.
    destruct Hh as (u & Hu & K). apply same_key_spec in K. exists it, u. tauto.
  - exfalso. apply Hh. apply B, G.
Qed.
Lemma usage_held tr d h g it u : hist tr d -> get_inst d h g = Some it -> In u (i_usage it) ->
  exists a, u_agent u = Some a /\ held tr h g a (u_ctrl u) (u_attr u) /\ inst_ok h it.
Proof.
  intros H G Hu. destruct (hist_use _ _ H) as [A _]. destruct (A _ _ _ G) as [Ok T].
  pose proof (io_use _ _ Ok) as F. rewrite Forall_forall in F. destruct (F u Hu) as (Ha & _).
  destruct (u_agent u) as [a|] eqn:E; [|congruence]. exists a. split; [reflexivity|]. split; [|exact Ok].
  unfold held. rewrite T. apply (total_pos _ _ _ _ h (io_use _ _ Ok)). exists u. split; [exact Hu|]. apply same_key_spec. auto.
Qed.

(** At any time at most one agent/controller claims an instance (BY_DRIVER, EXCLUSIVE or both), with one attribute
    set; in particular an exclusive holder never coexists with another holder that claims it. *)
Theorem protocol_one_claim tr d h g a1 c1 x1 a2 c2 x2 :
  hist tr d -> held tr h g a1 c1 x1 -> claims x1 -> held tr h g a2 c2 x2 -> claims x2 ->
  a1 = a2 /\ c1 = c2 /\ x1 = x2.
Proof.
  intros H H1 C1 H2 C2.
  destruct (held_usage _ _ _ _ _ _ _ H H1) as (it & u1 & G & Ok & I1 & A1 & B1 & D1).
  destruct (held_usage _ _ _ _ _ _ _ H H2) as (it2 & u2 & G2 & _ & I2 & A2 & B2 & D2).
  rewrite G in G2. injection G2 as <-. pose proof (io_use _ _ Ok) as F. rewrite Forall_forall in F.
  assert (u1 = u2).
  { apply (one_of_filter is_claim (i_usage it)); auto; [apply Ok|..]; apply (is_claim_iff h); auto; congruence. }
  subst u2. repeat split; congruence.
Qed.
(** And it holds it once: the open count of a claim is one. *)
Example protocol_one_claim_ex : held (fst demo) 1 7 2 (Some 1) 0x10 /\ claims 0x10.
Proof. split; [vm_compute; discriminate|]. left. reflexivity. Qed.

Lemma usage_new_args h a c attr :
  (~ open_args h c attr -> usage_new h (Some a) c attr = Err InvalidParameter) /\
  (open_args h c attr -> usage_new h (Some a) c attr = Ok (MkU (Some a) c attr 1)).
Proof.
  split; intros X.
  - unfold usage_new. destruct (attr =? OPEN_BY_CHILD_CONTROLLER) eqn:E8.
    { apply N.eqb_eq in E8. subst. destruct c as [c|]; [|reflexivity]. destruct (h =? c) eqn:E; [reflexivity|].
      exfalso. apply X. do 5 right. split; [reflexivity|]. split; [discriminate|]. apply N.eqb_neq in E. congruence. }
    destruct ((attr =? OPEN_BY_DRIVER) || (attr =? BY_DRIVER_EXCLUSIVE)) eqn:E1.
    { destruct c as [c|]; [|reflexivity]. exfalso. apply X. do 4 right. left. split; [|discriminate].
      apply orb_true_iff in E1. rewrite !N.eqb_eq in E1. exact E1. }
    destruct (attr =? OPEN_EXCLUSIVE) eqn:E2.
    { exfalso. apply X. apply N.eqb_eq in E2. subst. do 3 right. left. reflexivity. }
    destruct ((attr =? OPEN_BY_HANDLE_PROTOCOL) || (attr =? OPEN_GET_PROTOCOL) || (attr =? OPEN_TEST_PROTOCOL)) eqn:E3; [|reflexivity].
    exfalso. apply X. rewrite !orb_true_iff, !N.eqb_eq in E3. unfold open_args.
    destruct E3 as [[-> | ->]| ->]; [left|right; left|right; right; left]; reflexivity.
  - destruct X as [->|[->|[->|[->|[[[->| ->] Hc]|(-> & Hc & Hh)]]]]]; try reflexivity.
    + destruct c; [reflexivity|congruence].
    + destruct c; [reflexivity|congruence].
    + destruct c as [c|]; [|congruence]. unfold usage_new. cbn. destruct (h =? c) eqn:E; [|reflexivity].
      apply N.eqb_eq in E. congruence.
Qed.

(** The outcome of every open by a live agent of an installed protocol. *)
Theorem protocol_open_outcome tr d h g i a c attr :
  hist tr d -> installed tr h g = Some i -> live tr a -> olive tr c ->
  let r := fst (pstep d (OOpen h g (Some a) c attr)) in
  (~ open_args h c attr -> r = OutErr InvalidParameter) /\
  (open_args h c attr ->
    let driver := exists a' c' x, held tr h g a' c' x /\ (x = 0x10 \/ x = 0x30) in
    let claimed := exists a' c' x, held tr h g a' c' x /\ claims x in
    (driver -> held tr h g a c attr -> r = OutErr AlreadyStarted) /\
    (claims attr -> claimed -> ~ (driver /\ held tr h g a c attr) -> r = OutErr AccessDenied) /\
    (claims attr -> ~ claimed -> r = OutUnit) /\
    (~ claims attr -> ~ (driver /\ held tr h g a c attr) -> r = OutUnit)).
Proof.
  intros H Hi Ha Hc r. pose proof (hist_iface _ _ H h g) as Ei. rewrite Hi in Ei.
  destruct (get_inst d h g) as [it|] eqn:G; [|discriminate].
  assert (Vh : validate d h = Ok tt).
  { unfold validate, om_mem. unfold get_inst in G. destruct (om_get (p_handles d) h); [reflexivity|discriminate]. }
  assert (Va : validate d a = Ok tt).
  { unfold validate, om_mem. apply (hist_live _ _ _ H) in Ha. destruct (om_get (p_handles d) a); [reflexivity|congruence]. }
  assert (Vc : ovalidate d c = Ok tt).
  { destruct c as [c|]; [|reflexivity]. unfold ovalidate, validate, om_mem. apply (hist_live _ _ _ H) in Hc. destruct (om_get (p_handles d) c); [reflexivity|congruence]. }
  destruct (hist_use _ _ H) as [UA _]. destruct (UA _ _ _ G) as [Iok T].
  pose proof (io_use _ _ Iok) as F.
  assert (Dr : (exists a' c' x, held tr h g a' c' x /\ (x = 0x10 \/ x = 0x30)) <-> i_drv it = true).
  { rewrite (io_drv _ _ Iok). split.
    - intros (a' & c' & x & Hh & Hx). destruct (held_usage _ _ _ _ _ _ _ H Hh) as (it2 & u & G2 & _ & Hu & _ & _ & <-).
      rewrite G in G2. injection G2 as <-. apply existsb_exists. exists u. split; [exact Hu|]. unfold is_drv.
      apply has_bit_drv; [|exact Hx]. rewrite Forall_forall in F. apply (F u Hu).
    - intros X. apply existsb_exists in X. destruct X as (u & Hu & Hd). destruct (usage_held _ _ _ _ _ _ H G Hu) as (a' & _ & Hh & _).
      exists a', (u_ctrl u), (u_attr u). split; [exact Hh|]. apply has_bit_drv in Hd; [exact Hd|]. rewrite Forall_forall in F. apply (F u Hu). }
  assert (Cl : (exists a' c' x, held tr h g a' c' x /\ claims x) <-> i_exc it || i_drv it = true).
  { rewrite (io_drv _ _ Iok), (io_exc _ _ Iok), orb_true_iff. split.
    - intros (a' & c' & x & Hh & Hx). destruct (held_usage _ _ _ _ _ _ _ H Hh) as (it2 & u & G2 & _ & Hu & _ & _ & <-).
      rewrite G in G2. injection G2 as <-. rewrite Forall_forall in F. apply (is_claim_iff h) in Hx; [|apply F, Hu].
      unfold is_claim in Hx. apply orb_true_iff in Hx. rewrite !existsb_exists. destruct Hx; [right|left]; eauto.
    - intros X. assert (X' : exists u, In u (i_usage it) /\ is_claim u = true).
      { unfold is_claim. destruct X as [X|X]; apply existsb_exists in X; destruct X as (u & Hu & Hd); exists u; rewrite Hd, ?orb_true_r; auto. }
      destruct X' as (u & Hu & Hd). destruct (usage_held _ _ _ _ _ _ H G Hu) as (a' & _ & Hh & _).
      exists a', (u_ctrl u), (u_attr u). split; [exact Hh|]. rewrite Forall_forall in F. apply (is_claim_iff h); [apply F, Hu|exact Hd]. }
  assert (Hx : held tr h g a c attr <-> existsb (fun x => usage_eqb x (MkU (Some a) c attr 1)) (i_usage it) = true).
  { unfold held. rewrite T, (total_pos _ _ _ _ h F), existsb_exists. split; intros (u & Hu & K); exists u; split; auto. }
  unfold r. cbn [pstep fst]. unfold open_usage. rewrite Vh. cbn [ovalidate]. rewrite Va. rewrite Vc, G. cbv zeta. rewrite Dr, Cl, Hx.
  clear - c. set (ex := existsb (fun x => usage_eqb x (MkU (Some a) c attr 1)) (i_usage it)).
  assert (P : forall u, usage_new h (Some a) c attr = u ->
     (~ open_args h c attr -> u = Err InvalidParameter) /\ (open_args h c attr -> u = Ok (MkU (Some a) c attr 1))).
  { intros u <-. apply usage_new_args. }
  specialize (P _ eq_refl). split; intros Hargs.
  { rewrite (proj1 P Hargs). reflexivity. }
  rewrite (proj2 P Hargs). cbn [u_agent]. fold ex. cbn [is_none].
  assert (Cc : claims attr <-> (attr =? OPEN_BY_DRIVER) || (attr =? OPEN_EXCLUSIVE) || (attr =? BY_DRIVER_EXCLUSIVE) = true).
  { unfold claims, OPEN_BY_DRIVER, OPEN_EXCLUSIVE, BY_DRIVER_EXCLUSIVE. change (N.lor OPEN_BY_DRIVER OPEN_EXCLUSIVE) with 0x30. lia. }
  assert (Cn : (attr =? OPEN_BY_DRIVER) || (attr =? OPEN_EXCLUSIVE) || (attr =? BY_DRIVER_EXCLUSIVE) = false ->
    (attr =? OPEN_BY_CHILD_CONTROLLER) || (attr =? OPEN_BY_HANDLE_PROTOCOL) || (attr =? OPEN_GET_PROTOCOL) || (attr =? OPEN_TEST_PROTOCOL) = true).
  { change BY_DRIVER_EXCLUSIVE with 0x30.
    unfold open_args in Hargs. unfold OPEN_BY_DRIVER, OPEN_EXCLUSIVE, OPEN_BY_CHILD_CONTROLLER, OPEN_BY_HANDLE_PROTOCOL,
      OPEN_GET_PROTOCOL, OPEN_TEST_PROTOCOL. lia. }
  rewrite Cc. destruct ((attr =? OPEN_BY_DRIVER) || (attr =? OPEN_EXCLUSIVE) || (attr =? BY_DRIVER_EXCLUSIVE)).
  - destruct (i_drv it), (i_exc it), ex; cbn [andb orb negb fst]; intuition (try congruence; try discriminate).
    all: try (exfalso; tauto).
  - rewrite (Cn eq_refl). destruct (i_drv it), (i_exc it), ex; cbn [andb orb negb fst]; intuition (try congruence; try discriminate).
Qed.
Example protocol_open_outcome_ex :
  fst (pstep (snd demo) (OOpen 1 7 (Some 2) (Some 1) 0x10)) = OutErr AlreadyStarted /\
  fst (pstep (snd demo) (OOpen 1 7 (Some 1) (Some 1) 0x10)) = OutErr AccessDenied /\
  fst (pstep (snd demo) (OOpen 1 7 (Some 1) None 0x20)) = OutErr AccessDenied /\
  fst (pstep (snd demo) (OOpen 1 7 (Some 1) None 0x2)) = OutUnit /\
  fst (pstep (snd demo) (OOpen 2 7 (Some 1) (Some 1) 0x30)) = OutUnit /\
  fst (pstep (snd demo) (OOpen 2 7 (Some 1) None 0x30)) = OutErr InvalidParameter.
Proof. repeat apply conj; vm_compute; reflexivity. Qed.

(** A failed call of the database changes nothing, whatever the call. *)
Theorem protocol_failure_unchanged tr d o e d' :
  hist tr d -> pstep d o = (OutErr e, d') -> d' = d.
Proof.
  intros H E. destruct o; cbn [pstep] in E; try (injection E as _ <-; reflexivity); try discriminate.
  - destruct (install_effect _ _ _ _ _ _ (hist_pinv _ _ H) E) as [(? & ? & X & _)|(-> & _)]; [discriminate|reflexivity].
  - destruct (uninstall_effect _ _ _ _ _ _ (hist_pinv _ _ H) E) as [(X & _)|(-> & _)]; [discriminate|reflexivity].
  - destruct (open_effect _ _ _ _ _ _ _ _ E) as [->|(f & X & _)]; [reflexivity|discriminate].
  - destruct (close_cases _ _ _ _ _ _ _ _ E) as [(-> & _)|(it & G & Hd & Hr)]; [reflexivity|].
    pose proof (close_loop_spec (S (length (i_usage it))) (close_match agent ctrl attr) it false ltac:(lia)) as C.
    destruct (close_loop (S (length (i_usage it))) (close_match agent ctrl attr) it false) as [it' b].
    destruct C as (C1 & C2 & C3 & C4 & C5). cbn [fst] in Hd.
    destruct (existsb (close_match agent ctrl attr) (i_usage it)) eqn:Ex; [discriminate|].
    rewrite existsb_false_filter in C2 by exact Ex.
    rewrite existsb_false_and, andb_true_r in C3 by exact Ex. rewrite existsb_false_and, andb_true_r in C4 by exact Ex.
    assert (it' = it) by (destruct it', it; cbn in *; congruence). subst it' d'.
    unfold upd_inst. destruct d as [sd fu hs nt hh nx nr]. unfold set_handles. cbn [p_seed p_fuel p_handles p_notif p_hash p_next p_nreg]. f_equal.
    pose proof (pv_hs _ (hist_pinv _ _ H)) as Hs. cbn [p_handles] in Hs. apply om_ext; [apply om_sorted_upd, Hs|exact Hs|].
    intros k. rewrite om_get_upd. destruct (k =? h) eqn:Ek; [|reflexivity]. apply N.eqb_eq in Ek. subst k.
    unfold get_inst in G. cbn [p_handles] in G. destruct (om_get hs h) as [hd|] eqn:Gh; [|reflexivity]. cbn [option_map]. f_equal.
    destruct hd as [ord ps]. cbn [h_order h_prots] in *. f_equal.
    pose proof (pv_ps _ (hist_pinv _ _ H) h (MkH ord ps) Gh) as [Hp _]. cbn [h_prots] in Hp.
    apply om_ext; [apply om_sorted_upd, Hp|exact Hp|]. intros k. rewrite om_get_upd. destruct (k =? g) eqn:Ek; [|reflexivity].
    apply N.eqb_eq in Ek. subst k. rewrite G. reflexivity.
  - destruct (next_handle d r) as [o d2]. discriminate.
Qed.

(** No call can reach one of the panics in the code (the [expect] on child controllers, the catch-all of open). *)
Theorem protocol_no_panic tr d o : hist tr d -> fst (pstep d o) <> OutPanic.
Proof.
  intros H X. destruct (pstep d o) as [r d'] eqn:E. cbn [fst] in X. subst r.
  destruct o; cbn [pstep] in E; try discriminate.
  - destruct (install_effect _ _ _ _ _ _ (hist_pinv _ _ H) E) as [(? & ? & X & _)|(_ & [(? & X)|(_ & X)])]; discriminate.
  - destruct (uninstall_effect _ _ _ _ _ _ (hist_pinv _ _ H) E) as [(X & _)|(_ & (? & X))]; discriminate.
  - unfold locate_handles in E. destruct (filter _ _); discriminate.
  - unfold locate_protocol in E. destruct (find_inst _ _); discriminate.
  - unfold get_interface, validate in E. destruct (om_mem _ _); [destruct (get_inst _ _ _)|]; discriminate.
  - unfold validate in E. destruct (om_mem _ _); discriminate.
  - pose proof (open_cases _ _ _ _ _ _ _ _ E) as C. inversion C.
  - destruct (close_cases _ _ _ _ _ _ _ _ E) as [(_ & (? & X))|(? & _ & _ & X)]; [discriminate|]. destruct (existsb _ _); discriminate.
  - unfold open_info, validate in E. destruct (om_mem _ _); [destruct (get_inst _ _ _)|]; discriminate.
  - unfold open_info_all in E. destruct (om_get _ _); discriminate.
  - unfold protocols_on in E. destruct (om_get _ _); discriminate.
  - destruct (next_handle d r). discriminate.
  - unfold child_handles in E. destruct (om_get (p_handles d) h) as [hd|] eqn:G; [|discriminate].
    destruct (all_some _) eqn:A; [discriminate|]. clear E.
    assert (F : Forall (fun o => o <> None) (flat_map (fun gi : N * inst => flat_map child_of (i_usage (snd gi))) (h_prots hd))).
    { apply Forall_forall. intros x Hx. apply in_flat_map in Hx. destruct Hx as ([g it] & Hin & Hx). cbn [snd] in Hx.
      apply in_flat_map in Hx. destruct Hx as (u & Hu & Hx). unfold child_of in Hx.
      destruct (has_bit (u_attr u) OPEN_BY_CHILD_CONTROLLER) eqn:Hb; [|contradiction]. destruct Hx as [<-|[]].
      destruct (pv_ps _ (hist_pinv _ _ H) _ _ G) as [Hs _]. apply om_in_get in Hin; [|exact Hs].
      assert (Gi : get_inst d h g = Some it) by (unfold get_inst; rewrite G; exact Hin).
      destruct (usage_held _ _ _ _ _ _ H Gi Hu) as (a & _ & _ & Iok). pose proof (io_use _ _ Iok) as F. rewrite Forall_forall in F.
      destruct (F u Hu) as (_ & Ok & _ & Hc). apply has_bit_child in Hb; [|exact Ok]. apply Hc in Hb. tauto. }
    revert A. induction F as [|x l Hx F IH]; cbn [all_some]; [discriminate|]. destruct x as [x|]; [|congruence].
    destruct (all_some l); [discriminate|]. auto.
Qed.

(** The open report lists exactly the opens not closed, with their counts. *)
Theorem protocol_open_report tr d h g i :
  hist tr d -> installed tr h g = Some i ->
  exists l, pstep d (OOpenInfo h g) = (OutUsages l, d) /\
    (forall a c attr, reported l a c attr = opens tr h g a c attr) /\
    forall u, In u l -> exists a, u_agent u = Some a /\ held tr h g a (u_ctrl u) (u_attr u) /\ 1 <= u_count u.
Proof.
  intros H Hi. rewrite <- (hist_iface _ _ H) in Hi. destruct (get_inst d h g) as [it|] eqn:G; [|discriminate].
  exists (i_usage it). split; [|split].
  - cbn [pstep]. unfold open_info, validate, om_mem. rewrite G. unfold get_inst in G. destruct (om_get (p_handles d) h); [reflexivity|discriminate].
  - destruct (hist_use _ _ H) as [A _]. destruct (A _ _ _ G) as [_ T]. intros a c attr. rewrite T. clear.
    unfold reported. induction (i_usage it) as [|u t IH]; cbn [fold_right total]; [reflexivity|]. rewrite IH. unfold same_key.
    destruct (_ && _ && _); lia.
  - intros u Hu. destruct (usage_held _ _ _ _ _ _ H G Hu) as (a & Ha & Hh & Iok). exists a. split; [exact Ha|]. split; [exact Hh|].
    pose proof (io_use _ _ Iok) as F. rewrite Forall_forall in F. apply (F u Hu).
Qed.
Example protocol_open_report_ex : pstep (snd demo) (OOpenInfo 1 7) =
  (OutUsages [MkU (Some 2) (Some 1) 0x10 1; MkU (Some 2) (Some 2) 0x8 1], snd demo) /\ opens (fst demo) 1 7 2 (Some 2) 8 = 1.
Proof. split; vm_compute; reflexivity. Qed.

(** The child report: exactly the controllers opened BY_CHILD_CONTROLLER through this handle, each once. *)
Theorem protocol_child_handles tr d h :
  hist tr d -> exists l, pstep d (OChildren h) = (OutHandles l, d) /\ NoDup l /\
    forall c, In c l <-> exists g a, held tr h g a (Some c) 0x8.
Proof.
  intros H. pose proof (protocol_no_panic tr d (OChildren h) H) as NP. cbn [pstep fst] in *. unfold child_handles in *.
  destruct (om_get (p_handles d) h) as [hd|] eqn:G.
  2: { exists []. split; [reflexivity|]. split; [constructor|]. intros c. split; [intros []|]. intros (g & a & Hh).
       destruct (held_usage _ _ _ _ _ _ _ H Hh) as (it & u & Gi & _). unfold get_inst in Gi. rewrite G in Gi. discriminate. }
  destruct (all_some _) as [l|] eqn:A; [|congruence].
  assert (S0 : @om_sorted unit []) by constructor.
  exists (om_keys (fold_left (fun s k => om_set s k tt) l [])). split; [reflexivity|].
  split; [apply om_keys_nodup; apply (fold_set_mem l [] 0 S0)|]. intros c. rewrite <- om_mem_key.
  destruct (fold_set_mem l [] c S0) as [_ ->].
  assert (AS : forall lo l, all_some lo = Some l -> lo = map Some l).
  { clear. induction lo as [|[x|] t IH]; cbn [all_some]; intros l E; [injection E as <-; reflexivity| |discriminate].
    destruct (all_some t); [|discriminate]. injection E as <-. cbn [map]. f_equal. auto. }
  apply AS in A. assert (Hl : In c l <-> In (Some c) (map Some l)).
  { rewrite in_map_iff. split; [intros X; exists c; auto|intros (x & E & X)]. injection E as ->. exact X. }
  rewrite Hl, <- A. clear Hl. unfold om_mem at 1. cbn [om_get]. rewrite in_flat_map. split.
  - intros [([g it] & Hin & Hx)|X]; [|discriminate]. cbn [snd] in Hx. apply in_flat_map in Hx. destruct Hx as (u & Hu & Hx).
    unfold child_of in Hx. destruct (has_bit (u_attr u) OPEN_BY_CHILD_CONTROLLER) eqn:Hb; [|contradiction]. destruct Hx as [Hx|[]].
    destruct (pv_ps _ (hist_pinv _ _ H) _ _ G) as [Hs _]. apply om_in_get in Hin; [|exact Hs].
    assert (Gi : get_inst d h g = Some it) by (unfold get_inst; rewrite G; exact Hin).
    destruct (usage_held _ _ _ _ _ _ H Gi Hu) as (a & _ & Hh & Iok). pose proof (io_use _ _ Iok) as F. rewrite Forall_forall in F.
    destruct (F u Hu) as (_ & Ok & _). apply has_bit_child in Hb; [|exact Ok]. exists g, a. rewrite <- Hx, <- Hb. exact Hh.
  - intros (g & a & Hh). left. destruct (held_usage _ _ _ _ _ _ _ H Hh) as (it & u & Gi & Iok & Hu & _ & Hc & Hat).
    unfold get_inst in Gi. rewrite G in Gi. exists (g, it). split; [apply om_get_in, Gi|]. cbn [snd]. apply in_flat_map. exists u.
    split; [exact Hu|]. unfold child_of. rewrite Hat, Hc. left. reflexivity.
Qed.
Example protocol_child_handles_ex : pstep (snd demo) (OChildren 1) = (OutHandles [2], snd demo).
Proof. vm_compute. reflexivity. Qed.

(** * C20 *)

(** Uninstall succeeds exactly on the installed interface that nobody holds; otherwise nothing changes, and an
    interface that is held reports AccessDenied. *)
Theorem protocol_uninstall_outcome tr d h g i :
  hist tr d ->
  let '(r, d') := pstep d (OUninstall h g i) in
  (installed tr h g = Some i -> (forall a c x, ~ held tr h g a c x) -> r = OutUnit) /\
  (installed tr h g = Some i -> (exists a c x, held tr h g a c x) -> r = OutErr AccessDenied /\ d' = d) /\
  (installed tr h g <> Some i -> (live tr h -> r = OutErr NotFound) /\ (~ live tr h -> r = OutErr InvalidParameter) /\ d' = d).
Proof.
  intros H. cbn [pstep]. unfold uninstall. pose proof (hist_iface _ _ H h g) as I. pose proof (hist_live _ _ h H) as L.
  destruct (om_get (p_handles d) h) as [hd|] eqn:G.
  2: { unfold get_inst in I. rewrite G in I. cbn in I. rewrite <- I. split; [discriminate|]. split; [discriminate|].
       intros _. split; [intros X; apply L in X; congruence|auto]. }
  assert (Hl : live tr h) by (apply L; discriminate).
  destruct (om_get (h_prots hd) g) as [it|] eqn:G2.
  2: { unfold get_inst in I. rewrite G, G2 in I. cbn in I. rewrite <- I. split; [discriminate|]. split; [discriminate|]. intros _. tauto. }
  assert (Gi : get_inst d h g = Some it) by (unfold get_inst; rewrite G; exact G2).
  rewrite Gi in I. cbn [option_map] in I. rewrite <- I. destruct (i_iface it =? i) eqn:Ei; cbn [negb].
  - apply N.eqb_eq in Ei. subst i. destruct (i_usage it) as [|u t] eqn:U.
    + split; [auto|]. split; [|congruence]. intros _ (a & c & x & Hh). exfalso.
      destruct (held_usage _ _ _ _ _ _ _ H Hh) as (it2 & u & Gi2 & _ & Hu & _). rewrite Gi in Gi2. injection Gi2 as <-. rewrite U in Hu. exact Hu.
    + split; [|split; [auto|congruence]]. intros _ Hn. exfalso.
      destruct (usage_held _ _ _ _ _ u H Gi) as (a & _ & Hh & _); [rewrite U; left; reflexivity|]. exact (Hn _ _ _ Hh).
  - apply N.eqb_neq in Ei. split; [congruence|]. split; [congruence|]. intros _. tauto.
Qed.
Example protocol_uninstall_outcome_ex :
  pstep (snd demo) (OUninstall 1 7 100) = (OutErr AccessDenied, snd demo) /\
  fst (pstep (snd demo) (OUninstall 2 7 200)) = OutUnit /\ fst (pstep (snd demo) (OUninstall 2 7 201)) = OutErr NotFound.
Proof. repeat apply conj; vm_compute; reflexivity. Qed.

(** After a successful uninstall everything else is as before; the handle dies with its last protocol. *)
Theorem protocol_uninstall_effect tr d h g i d' :
  hist tr d -> pstep d (OUninstall h g i) = (OutUnit, d') ->
  let tr' := (OUninstall h g i, OutUnit) :: tr in
  hist tr' d' /\
  (forall h' g', installed tr' h' g' = if (h' =? h) && (g' =? g) then None else installed tr h' g') /\
  ((forall g', g' <> g -> installed tr h g' = None) -> pstep d' (OValidate h) = (OutErr InvalidParameter, d')).
Proof.
  intros H E tr'. assert (H' : hist tr' d') by (econstructor; eauto). split; [|split].
  - exact H'.
  - intros h' g'. reflexivity.
  - intros Hn. apply (protocol_handle_valid _ _ _ H'). intros (g' & x & Hi). unfold tr' in Hi. cbn [installed] in Hi.
    rewrite N.eqb_refl in Hi. cbn [andb] in Hi. destruct (g' =? g) eqn:Eg; [discriminate|]. rewrite Hn in Hi; [discriminate|].
    apply N.eqb_neq in Eg. exact Eg.
Qed.

(** Close drops every open of the agent and controller, and fails when there is none. *)
Theorem protocol_close_outcome tr d h g i a c :
  hist tr d -> installed tr h g = Some i -> live tr a -> olive tr c ->
  let r := fst (pstep d (OClose h g (Some a) c None)) in
  ((exists x, held tr h g a c x) -> r = OutUnit) /\ ((forall x, ~ held tr h g a c x) -> r = OutErr NotFound).
Proof.
  intros H Hi Ha Hc r. rewrite <- (hist_iface _ _ H) in Hi. destruct (get_inst d h g) as [it|] eqn:G; [|discriminate].
  destruct (pstep d (OClose h g (Some a) c None)) as [r' d'] eqn:E. unfold r. cbn [fst]. cbn [pstep] in E.
  assert (Hr : r' = if existsb (close_match (Some a) c None) (i_usage it) then OutUnit else OutErr NotFound).
  { unfold close_usage in E.
    assert (Vh : validate d h = Ok tt).
    { unfold validate, om_mem. unfold get_inst in G. destruct (om_get (p_handles d) h); [reflexivity|discriminate]. }
    assert (Va : ovalidate d (Some a) = Ok tt).
    { unfold ovalidate, validate, om_mem. apply (hist_live _ _ _ H) in Ha. destruct (om_get (p_handles d) a); [reflexivity|congruence]. }
    assert (Vc : ovalidate d c = Ok tt).
    { destruct c as [c|]; [|reflexivity]. unfold ovalidate, validate, om_mem. apply (hist_live _ _ _ H) in Hc. destruct (om_get (p_handles d) c); [reflexivity|congruence]. }
    rewrite Vh, Va, Vc, G in E.
    pose proof (close_loop_spec (S (length (i_usage it))) (close_match (Some a) c None) it false ltac:(lia)) as C.
    destruct (close_loop _ _ it false) as [it' b]. destruct C as (_ & _ & _ & _ & ->). cbn [orb] in E. injection E as <- _. reflexivity. }
  subst r'. split; intros X.
  - destruct X as (x & Hh). destruct (held_usage _ _ _ _ _ _ _ H Hh) as (it2 & u & Gi2 & _ & Hu & H1 & H2 & _).
    rewrite G in Gi2. injection Gi2 as <-.
    assert (existsb (close_match (Some a) c None) (i_usage it) = true) as ->; [|reflexivity].
    apply existsb_exists. exists u. split; [exact Hu|]. unfold close_match. rewrite H1, H2, !oeqb_refl. reflexivity.
  - destruct (existsb (close_match (Some a) c None) (i_usage it)) eqn:Ex; [|reflexivity]. exfalso.
    apply existsb_exists in Ex. destruct Ex as (u & Hu & K). unfold close_match in K. rewrite !andb_true_iff, !oeqb_eq in K.
    destruct K as ((K1 & K2) & _). destruct (usage_held _ _ _ _ _ _ H G Hu) as (a' & Ha' & Hh & _).
    rewrite K1 in Ha'. injection Ha' as <-. rewrite K2 in Hh. exact (X _ Hh).
Qed.
Example protocol_close_outcome_ex :
  fst (pstep (snd demo) (OClose 1 7 (Some 2) (Some 1) None)) = OutUnit /\
  fst (pstep (snd demo) (OClose 1 7 (Some 1) (Some 1) None)) = OutErr NotFound.
Proof. split; vm_compute; reflexivity. Qed.

(** Opening and then closing restores the database exactly, when the agent held nothing through that controller. *)
Theorem protocol_open_close_restores tr d h g a c attr d1 d2 :
  hist tr d -> (forall x, ~ held tr h g a c x) ->
  pstep d (OOpen h g (Some a) c attr) = (OutUnit, d1) ->
  pstep d1 (OClose h g (Some a) c None) = (OutUnit, d2) ->
  d2 = d.
Proof.
  intros H Hn E1 E2. cbn [pstep] in E1, E2.
  pose proof (open_cases _ _ _ _ _ _ _ _ E1) as C.
  assert (Hno : forall it, get_inst d h g = Some it -> existsb (close_match (Some a) c None) (i_usage it) = false).
  { intros it G. destruct (existsb (close_match (Some a) c None) (i_usage it)) eqn:Ex; [|reflexivity]. exfalso.
    apply existsb_exists in Ex. destruct Ex as (u & Hu & K). unfold close_match in K. rewrite !andb_true_iff, !oeqb_eq in K.
    destruct K as ((K1 & K2) & _). destruct (usage_held _ _ _ _ _ _ H G Hu) as (a' & Ha' & Hh & _).
    rewrite K1 in Ha'. injection Ha' as <-. rewrite K2 in Hh. exact (Hn _ Hh). }
  inversion C as [|it G X|it G Hu Hd He Hex|it G Hu Ha Hcl]; subst; try discriminate.
  { exfalso. specialize (Hno _ G). apply existsb_exists in Hex. destruct Hex as (u & Hin & K).
    assert (existsb (close_match (Some a) c None) (i_usage it) = true); [|congruence]. apply existsb_exists. exists u. split; [exact Hin|].
    unfold usage_eqb in K. cbn [u_agent u_ctrl u_attr] in K. unfold close_match. apply andb_true_iff in K. destruct K as [-> _]. reflexivity. }
  destruct (hist_use _ _ H) as [A _]. destruct (A _ _ _ G) as [Iok _]. specialize (Hno _ G).
  match type of E2 with close_usage ?D _ _ _ _ _ = _ => set (d1 := D) in * end.
  assert (G1 : get_inst d1 h g = Some (MkI (i_iface it) (i_drv it || has_bit attr OPEN_BY_DRIVER)
     (i_exc it || has_bit attr OPEN_EXCLUSIVE) (i_usage it ++ [MkU (Some a) c attr 1]))).
  { unfold d1. rewrite upd_get_inst, !N.eqb_refl, G. reflexivity. }
  pose proof (hist_call _ _ (OOpen h g (Some a) c attr) _ _ H E1) as Hh1. fold d1 in Hh1.
  destruct (close_cases _ _ _ _ _ _ _ _ E2) as [(_ & (e & X))|(it1 & G1' & -> & _)]; [discriminate|].
  rewrite G1 in G1'. injection G1' as <-.
  set (it1 := MkI (i_iface it) (i_drv it || has_bit attr OPEN_BY_DRIVER)
     (i_exc it || has_bit attr OPEN_EXCLUSIVE) (i_usage it ++ [MkU (Some a) c attr 1])) in *.
  pose proof (close_loop_spec (S (length (i_usage it1))) (close_match (Some a) c None) it1 false ltac:(lia)) as CS.
  destruct (hist_use _ _ Hh1) as [A1 _]. destruct (A1 _ _ _ G1) as [Iok1 _].
  pose proof (close_inst_ok h (S (length (i_usage it1))) (close_match (Some a) c None) it1 false ltac:(lia) Iok1) as Iok2.
  destruct (close_loop (S (length (i_usage it1))) (close_match (Some a) c None) it1 false) as [it' b]. cbn [fst] in *.
  destruct CS as (C1 & C2 & _ & _ & _).
  assert (Eu : i_usage it' = i_usage it).
  { rewrite C2. unfold it1. cbn [i_usage]. rewrite filter_app, existsb_false_filter by exact Hno. cbn [filter].
    unfold close_match at 1. cbn [u_agent u_ctrl]. rewrite !oeqb_refl. cbn [andb negb]. apply app_nil_r. }
  assert (it' = it).
  { pose proof (io_drv _ _ Iok2) as D2. pose proof (io_exc _ _ Iok2) as X2. rewrite Eu in D2, X2.
    rewrite <- (io_drv _ _ Iok) in D2. rewrite <- (io_exc _ _ Iok) in X2. destruct it', it; cbn in *; congruence. }
  subst it'. unfold d1. clear - H G. unfold upd_inst, set_handles. destruct d as [sd fu hs nt hh nx nr]. cbn [p_seed p_fuel p_handles p_notif p_hash p_next p_nreg]. f_equal.
  pose proof (pv_hs _ (hist_pinv _ _ H)) as Hs. cbn [p_handles] in Hs. apply om_ext; [apply om_sorted_upd, om_sorted_upd, Hs|exact Hs|].
  intros k. rewrite !om_get_upd. destruct (k =? h) eqn:Ek; [|reflexivity]. apply N.eqb_eq in Ek. subst k. rewrite ?N.eqb_refl.
  unfold get_inst in G. cbn [p_handles] in G. destruct (om_get hs h) as [hd|] eqn:Gh; [|reflexivity]. cbn [option_map]. f_equal.
  destruct hd as [ord ps]. cbn [h_order h_prots] in *. f_equal.
  pose proof (pv_ps _ (hist_pinv _ _ H) h (MkH ord ps) Gh) as [Hp _]. cbn [h_prots] in Hp.
  apply om_ext; [apply om_sorted_upd, om_sorted_upd, Hp|exact Hp|]. intros k. rewrite !om_get_upd. destruct (k =? g) eqn:Ek; [|reflexivity].
  apply N.eqb_eq in Ek. subst k. rewrite ?N.eqb_refl, G. reflexivity.
Qed.
Example protocol_open_close_restores_ex :
  exists d1, pstep (snd demo) (OOpen 1 7 (Some 1) None 0x2) = (OutUnit, d1) /\ d1 <> snd demo /\
             pstep d1 (OClose 1 7 (Some 1) None None) = (OutUnit, snd demo).
Proof. eexists. split; [vm_compute; reflexivity|]. split; [vm_compute; discriminate|vm_compute; reflexivity]. Qed.

(** Refuted: closing undoes one open.  An agent that opened the instance twice loses both. *)
Theorem protocol_close_one_open_refuted :
  exists tr d h g a x d', hist tr d /\ opens tr h g a None x = 2 /\
    pstep d (OClose h g (Some a) None None) = (OutUnit, d') /\
    opens ((OClose h g (Some a) None None, OutUnit) :: tr) h g a None x = 0 /\
    fst (pstep d' (OOpenInfo h g)) = OutUsages [].
Proof.
  pose proof (prun_hist [OInstall None 7 100; OOpen 1 7 (Some 1) None 2; OOpen 1 7 (Some 1) None 2] _ _ (hist_new 1 10)) as H.
  do 2 eexists. exists 1, 7, 1, 2. eexists. split; [exact H|]. repeat apply conj; vm_compute; reflexivity.
Qed.

(** Refuted: what is open can be closed.  Once the agent's handle is gone its opens can never be closed by any
    argument, and the interface can not be uninstalled. *)
Theorem protocol_close_dead_agent_refuted :
  exists tr d h g i a x, hist tr d /\ installed tr h g = Some i /\ held tr h g a None x /\
    (forall c y, pstep d (OClose h g (Some a) c y) = (OutErr InvalidParameter, d)) /\
    pstep d (OUninstall h g i) = (OutErr AccessDenied, d).
Proof.
  pose proof (prun_hist [OInstall None 7 100; OInstall None 9 200; OOpen 1 7 (Some 2) None 1; OUninstall 2 9 200] _ _ (hist_new 1 10)) as H.
  do 2 eexists. exists 1, 7, 100, 2, 1. split; [exact H|]. split; [vm_compute; reflexivity|]. split; [vm_compute; discriminate|].
  split; [intros c y; vm_compute; reflexivity|vm_compute; reflexivity].
Qed.

(** * C21 *)

(** The key of a registration hands out exactly the waiting handles, smallest first, and none when nothing waits. *)
Theorem protocol_next_for_registration tr d r :
  hist tr d ->
  match fst (pstep d (ONext r)) with
  | OutNext (Some h) => waiting tr r h = true /\ forall h', waiting tr r h' = true -> h <= h'
  | OutNext None => forall h, waiting tr r h = false
  | _ => False
  end.
Proof.
  intros H. cbn [pstep]. pose proof (next_handle_spec tr d r H) as X. destruct (next_handle d r) as [o d']. exact X.
Qed.
Example protocol_next_for_registration_ex :
  waiting (fst demo) 1 1 = true /\ waiting (fst demo) 1 2 = false /\ fst (pstep (snd demo) (ONext 1)) = OutNext (Some 1) /\
  fst (pstep (snd (pstep (snd demo) (ONext 1))) (ONext 1)) = OutNext None.
Proof. repeat apply conj; vm_compute; reflexivity. Qed.

(** A registration starts with nothing waiting: earlier installations are never delivered. *)
Theorem protocol_registration_starts_empty tr d g ev r d' h :
  hist tr d -> pstep d (ORegister g ev) = (OutReg r, d') ->
  registration tr r = None /\ registration ((ORegister g ev, OutReg r) :: tr) r = Some (g, ev) /\
  waiting ((ORegister g ev, OutReg r) :: tr) r h = false.
Proof.
  intros H E. cbn [pstep] in E. unfold register_notify in E. injection E as <- _.
  assert (X : registration tr (p_nreg d) = None).
  { destruct (registration tr (p_nreg d)) as [x|] eqn:R; [|reflexivity]. exfalso.
    pose proof (ni_reg_lt _ _ _ _ (hist_notif _ _ H) R). lia. }
  split; [exact X|]. split; [cbn [registration]; rewrite N.eqb_refl; reflexivity|].
  cbn [waiting]. apply (ni_none _ _ (hist_notif _ _ H)). exact X.
Qed.

(** An install signals exactly the events registered for its protocol. *)
Theorem protocol_install_events tr d h g i key evs d' :
  hist tr d -> pstep d (OInstall h g i) = (OutHandle key evs, d') ->
  forall ev, In ev evs <-> exists r, registration tr r = Some (g, ev).
Proof.
  intros H E. destruct (install_effect _ _ _ _ _ _ (hist_pinv _ _ H) E) as [(key' & evs' & X & He)|(_ & [(e & X)|(_ & X)])]; [|discriminate..].
  injection X as <- <-. rewrite (ie_evs _ _ _ _ _ _ _ He). apply events_spec, H.
Qed.

(** Refuted: each installation is delivered.  Installing, uninstalling and installing again on the same handle is
    delivered once; and a handle is delivered although the protocol is gone from it. *)
Theorem protocol_each_install_delivered_refuted :
  exists ops tr d, prun (pdb_new 1 10) [] ops = (tr, d) /\
    length (filter (fun c => match c with (OInstall _ 8 _, OutHandle _ _) => true | _ => false end) tr) = 2%nat /\
    fst (pstep d (ONext 1)) = OutNext (Some 1) /\ fst (pstep (snd (pstep d (ONext 1))) (ONext 1)) = OutNext None.
Proof.
  exists [OInstall None 7 100; ORegister 8 55; OInstall (Some 1) 8 1; OUninstall 1 8 1; OInstall (Some 1) 8 2].
  do 2 eexists. split; [vm_compute; reflexivity|]. repeat apply conj; vm_compute; reflexivity.
Qed.
Theorem protocol_delivered_handle_has_protocol_refuted :
  exists tr d h, hist tr d /\ registration tr 1 = Some (8, 55) /\ fst (pstep d (ONext 1)) = OutNext (Some h) /\
    installed tr h 8 = None /\ ~ live tr h.
Proof.
  pose proof (prun_hist [ORegister 8 55; OInstall None 8 1; OUninstall 1 8 1] _ _ (hist_new 1 10)) as H.
  do 2 eexists. exists 1. split; [exact H|]. split; [vm_compute; reflexivity|]. split; [vm_compute; reflexivity|].
  split; [vm_compute; reflexivity|]. intros L. apply (hist_live _ _ _ H) in L. apply L. vm_compute. reflexivity.
Qed.

(** * The services *)

(** Whatever the callbacks do, every service leaves a database reached by plain calls, so all of the above holds. *)
Theorem protocol_services_reachable fuel env s :
  shist s ->
  (forall h g i, shist (snd (svc_install env s h g i))) /\
  (forall h g i, shist (snd (core_uninstall fuel env s h g i))) /\
  (forall h g o n, shist (snd (svc_reinstall fuel env s h g o n))) /\
  (forall h g a c x, shist (snd (svc_open env s h g a c x))) /\
  (forall h g a c, shist (snd (svc_close s h g a c))) /\
  (forall h items, shist (snd (svc_install_multiple fuel env s h items))) /\
  (forall h items, shist (snd (svc_uninstall_multiple fuel env s h items))) /\
  (forall g r, shist (snd (svc_locate_protocol s g r))) /\
  (forall k n, shist (snd (svc_locate_handle s k n))).
Proof.
  intros H. repeat apply conj; intros.
  - apply svc_install_hist, H.
  - apply core_uninstall_hist, H.
  - apply svc_reinstall_hist, H.
  - apply svc_open_hist, H.
  - unfold svc_close. pose proof (call_hist s (OValidate a) H) as H1. destruct (call s (OValidate a)) as [r1 s1]. cbn [snd] in H1.
    destruct r1; try exact H1. destruct (c =? 0).
    + pose proof (call_hist s1 (OClose h g (Some a) None None) H1) as H2. destruct (call s1 _). exact H2.
    + pose proof (call_hist s1 (OValidate c) H1) as H2. destruct (call s1 (OValidate c)) as [r2 s2]. cbn [snd] in H2. destruct r2; try exact H2.
      pose proof (call_hist s2 (OClose h g (Some a) (Some c) None) H2) as H3. destruct (call s2 _). exact H3.
  - unfold svc_install_multiple. destruct (check_paths_installed env items s H) as [H1 _]. destruct (check_paths env s items) as [dup s1]. cbn [snd] in H1.
    destruct dup; [exact H1|]. clear H. generalize (@nil (N * N)) as done. revert s1 h H1.
    induction items as [|[g i] t IH]; intros s1 h H1 done; cbn [install_each]; [exact H1|].
    pose proof (svc_install_hist env s1 h g i H1) as H2. destruct (svc_install env s1 h g i) as [[st h'] s2]. cbn [snd] in H2.
    destruct st; [apply IH, H2|..]; cbn [snd]; apply uninstall_each_hist, H2.
  - unfold svc_uninstall_multiple. destruct (h =? 0); [exact H|]. generalize (@nil (N * N)) as done. revert s H.
    induction items as [|[g i] t IH]; intros s H done; cbn [uninstall_list]; [exact H|].
    pose proof (core_uninstall_hist fuel env s h g i H) as H2. destruct (core_uninstall fuel env s h g i) as [st s2]. cbn [snd] in H2.
    destruct st; [apply IH, H2|..]; cbn [snd]; apply reinstall_each_hist, H2.
  - unfold svc_locate_protocol. destruct (r =? 0).
    + pose proof (call_hist s (OLocateProtocol g) H) as H1. destruct (call s (OLocateProtocol g)) as [q s1]. destruct q; exact H1.
    + pose proof (call_hist s (ONext r) H) as H1. destruct (call s (ONext r)) as [q s1]. cbn [snd] in H1. destruct q; try exact H1. destruct h; [|exact H1].
      pose proof (call_hist s1 (OGetInterface n g) H1) as H2. destruct (call s1 (OGetInterface n g)) as [q2 s2]. destruct q2; exact H2.
  - unfold svc_locate_handle. set (q := match k with SAll => _ | SByRegister _ => _ | SByProtocol _ => _ end).
    assert (Hq : shist (snd q)).
    { unfold q. destruct k as [|key|g]; [apply call_hist, H| |apply call_hist, H]. destruct (key =? 0); [exact H|apply call_hist, H]. }
    destruct q as [r s1]. cbn [snd] in Hq.
    destruct r; try exact Hq; [destruct l as [|x l]; [exact Hq|]|destruct h; [|exact Hq]]; destruct (n <? _); exact Hq.
Qed.

(** OpenProtocol and HandleProtocol hand out an interface that is installed at that moment. *)
Theorem protocol_svc_open_interface env s h g a c attr s' i :
  shist s -> svc_open env s h g a c attr = (Success, Some i, s') ->
  installed (fst s') h g = Some i /\ attr <> OPEN_TEST_PROTOCOL.
Proof.
  intros H. rewrite svc_open_unfold.
  pose proof (valid_or_none_hist s a H) as H1. destruct (valid_or_none s a) as [a' s1]. cbn [snd] in H1.
  pose proof (valid_or_none_hist s1 c H1) as H2. destruct (valid_or_none s1 c) as [c' s2]. cbn [snd] in H2.
  assert (F : forall s2, shist s2 -> open_finish h g a' c' attr s2 = (Success, Some i, s') ->
     installed (fst s') h g = Some i /\ attr <> OPEN_TEST_PROTOCOL).
  { clear. intros s2 H2 E. unfold open_finish in E. destruct (call s2 (OOpen h g a' c' attr)) as [r s3] eqn:E3.
    apply call_eq in E3; [|exact H2]. destruct E3 as (H3 & _ & _).
    destruct (call s3 (OGetInterface h g)) as [r4 s4] eqn:E4.
    assert (G : r4 = OutIface i -> s4 = s' -> installed (fst s') h g = Some i).
    { intros -> ->. pose proof (get_interface_call _ _ _ _ _ H3 E4) as X. apply call_eq in E4; [|exact H3]. destruct E4 as (_ & T & _). rewrite T. exact X. }
    destruct r; try discriminate.
    - destruct r4; try discriminate. destruct (attr =? OPEN_TEST_PROTOCOL) eqn:Et; [discriminate|]. injection E as -> ->.
      split; [auto|]. apply N.eqb_neq in Et. exact Et.
    - destruct e; try discriminate. destruct r4; try (destruct (has_bit attr OPEN_BY_DRIVER); discriminate).
      destruct (has_bit attr OPEN_BY_DRIVER); [discriminate|]. destruct (attr =? OPEN_TEST_PROTOCOL) eqn:Et; [discriminate|]. injection E as -> ->.
      split; [auto|]. apply N.eqb_neq in Et. exact Et. }
  destruct (has_bit attr OPEN_EXCLUSIVE); [|apply F, H2].
  pose proof (usages_of_hist s2 h g H2) as H3. destruct (usages_of s2 h g) as [[st us] s3]. cbn [snd] in H3.
  destruct st; try discriminate. destruct (find _ us) as [u|]; [|apply F, H3].
  destruct (e_disc env (fst s3) h (u_agent u)) as [ok ops]. destruct ok; [apply F, calls_hist, H3|discriminate].
Qed.

(** A successful open by a live agent with a claiming attribute makes that agent the only one with a claim. *)
Theorem protocol_svc_open_claims env s h g a c attr s' i :
  shist s -> claims attr -> svc_open env s h g a c attr = (Success, Some i, s') ->
  exists c', held (fst s') h g a c' attr /\
    forall a2 c2 x2, held (fst s') h g a2 c2 x2 -> claims x2 -> a2 = a /\ c2 = c' /\ x2 = attr.
Proof.
  intros H Hcl E. pose proof (svc_open_hist env s h g a c attr H) as Hs'. rewrite E in Hs'. cbn [snd] in Hs'.
  assert (K : exists c', held (fst s') h g a c' attr).
  { revert E. rewrite svc_open_unfold. unfold valid_or_none at 1.
    pose proof (call_hist s (OValidate a) H) as H1. destruct (call s (OValidate a)) as [ra s1] eqn:Ea. cbn [snd] in H1.
    assert (F : forall a' c' s2, shist s2 -> (a' = Some a \/ a' = None) -> open_finish h g a' c' attr s2 = (Success, Some i, s') ->
       exists c', held (fst s') h g a c' attr).
    { clear - Hcl. intros a' c' s2 H2 Ha E. unfold open_finish in E. destruct (call s2 (OOpen h g a' c' attr)) as [r s3] eqn:E3.
      apply call_eq in E3; [|exact H2]. destruct E3 as (H3 & T3 & E3). cbn [pstep] in E3.
      destruct (call s3 (OGetInterface h g)) as [r4 s4] eqn:E4. apply call_eq in E4; [|exact H3]. destruct E4 as (H4 & T4 & _).
      destruct r; try discriminate.
      - destruct r4; try discriminate. injection E as _ <-. exists c'. unfold held. rewrite T4, T3.
        destruct Ha as [->| ->].
        + cbn [opens]. rewrite !N.eqb_refl, oeqb_refl. cbn [andb]. lia.
        + exfalso. pose proof (open_cases _ _ _ _ _ _ _ _ E3) as C. inversion C as [|it G X Hu|it G Hu|it G Hu Ha]; subst; try congruence;
            destruct (usage_new_ok _ _ _ _ _ Hu) as (_ & _ & _ & Q); apply Q in Hcl; congruence.
      - destruct e; try discriminate. exfalso.
        assert (Hd : has_bit attr OPEN_BY_DRIVER = true \/ attr = 0x20).
        { destruct Hcl as [->|[->| ->]]; [left; reflexivity|right; reflexivity|left; reflexivity]. }
        destruct Hd as [Hd| ->]; [rewrite Hd in E; destruct r4; discriminate|].
        (* EXCLUSIVE is never AlreadyStarted *)
        unfold open_usage in E3. destruct (validate (snd s2) h); try discriminate. destruct (ovalidate (snd s2) a'); try discriminate.
        destruct (ovalidate (snd s2) c'); try discriminate. destruct (get_inst (snd s2) h g) as [it|] eqn:G; try discriminate.
        destruct (usage_new h a' c' 32) as [u| |] eqn:U; try discriminate; [|unfold usage_new in U; cbn in U; destruct a'; cbn in U; [discriminate|injection U as <-; discriminate]].
        destruct (i_drv it && existsb (fun x => usage_eqb x u) (i_usage it)) eqn:Ex.
        + destruct (hist_use _ _ H2) as [A _]. destruct (A _ _ _ G) as [Iok _]. apply andb_true_iff in Ex. destruct Ex as [X1 X2].
          rewrite (io_drv _ _ Iok) in X1. apply existsb_exists in X1, X2. destruct X1 as (u1 & I1 & D1), X2 as (u2 & I2 & D2).
          destruct (usage_new_ok _ _ _ _ _ U) as (-> & _). unfold usage_eqb in D2. rewrite !andb_true_iff in D2. cbn [u_attr] in D2. destruct D2 as (_ & D2). apply N.eqb_eq in D2.
          pose proof (io_use _ _ Iok) as F. rewrite Forall_forall in F.
          assert (u1 = u2).
          { apply (one_of_filter is_claim (i_usage it)); auto; [apply Iok|unfold is_claim; rewrite D1; reflexivity|].
            apply (is_claim_iff h); [apply F, I2|]. right. left. exact D2. }
          subst u2. apply has_bit_drv in D1; [|apply (F u1 I1)]. lia.
        + destruct (negb (i_exc it) && _); [discriminate|]. cbn in E3. destruct (i_exc it || i_drv it); [discriminate|].
          destruct (is_none a'); discriminate. }
    assert (Fin : forall a' c' s2, shist s2 -> (a' = Some a \/ a' = None) ->
      (if has_bit attr OPEN_EXCLUSIVE then
        match usages_of s2 h g with
        | (Success, us, s3) =>
          match find (fun u => has_bit (u_attr u) OPEN_BY_DRIVER && negb (has_bit (u_attr u) OPEN_EXCLUSIVE) &&
                               negb (oeqb (u_agent u) a')) us with
          | Some u =>
            let '(ok, ops) := e_disc env (fst s3) h (u_agent u) in
            let s4 := calls s3 ops in
            if ok then open_finish h g a' c' attr s4 else (Failed AccessDenied, None, s4)
          | None => open_finish h g a' c' attr s3
          end
        | (st, _, s3) => (st, None, s3)
        end
      else open_finish h g a' c' attr s2) = (Success, Some i, s') -> exists c', held (fst s') h g a c' attr).
    { intros a' c' s2 H2 Ha. destruct (has_bit attr OPEN_EXCLUSIVE); [|apply F; assumption].
      pose proof (usages_of_hist s2 h g H2) as H3. destruct (usages_of s2 h g) as [[st us] s3]. cbn [snd] in H3.
      destruct st; try discriminate. destruct (find _ us) as [u|]; [|apply F; assumption].
      destruct (e_disc env (fst s3) h (u_agent u)) as [ok ops]. destruct ok; [|discriminate]. apply F; [apply calls_hist, H3|exact Ha]. }
    pose proof (valid_or_none_hist s1 c H1) as H2.
    destruct ra; destruct (valid_or_none s1 c) as [c' s2]; cbn [snd] in H2; (apply Fin; [exact H2|]); auto. }
  destruct K as (c' & K). exists c'. split; [exact K|]. intros a2 c2 x2 Hh Hc2.
  exact (protocol_one_claim _ _ _ _ _ _ _ _ _ _ Hs' Hh Hc2 K Hcl).
Qed.

(** * C48 *)

(** InstallMultipleProtocolInterfaces is all or nothing when the notification callbacks make no protocol calls. *)
Theorem protocol_install_multiple_atomic fuel env s h items :
  quiet env -> shist s ->
  let '(st, h2, s') := svc_install_multiple (S fuel) env s h items in
  match st with
  | Success => (h <> 0 -> h2 = h) /\ (items <> [] -> h2 <> 0) /\ NoDup (map fst items) /\
      (forall g i, In (g, i) items -> installed (fst s) h2 g = None /\ installed (fst s') h2 g = Some i) /\
      (forall h' g, h' <> h2 \/ ~ In g (map fst items) -> installed (fst s') h' g = installed (fst s) h' g)
  | _ => forall h' g, installed (fst s') h' g = installed (fst s) h' g
  end.
Proof.
  intros Q H. unfold svc_install_multiple. destruct (check_paths_installed env items s H) as [H1 V1].
  destruct (check_paths env s items) as [dup s1]. cbn [snd] in H1, V1. destruct dup; [exact V1|].
  pose proof (install_each_atomic fuel env items s1 h [] (fun h g => installed (fst s) h g) Q H1) as X.
  specialize (X ltac:(constructor) ltac:(congruence)).
  specialize (X ltac:(intros h' g'; rewrite V1; unfold find_item; cbn [find]; destruct (h' =? h); reflexivity)).
  specialize (X ltac:(intros ? ? [])).
  destruct (install_each (S fuel) env s1 h items []) as [[st h2] s'].
  destruct st; try exact X. cbn [app] in X. destruct X as (X1 & X2 & X3 & X4 & X5).
  split; [exact X2|]. split; [exact X3|]. split; [exact X1|]. split.
  - intros g i Hin. split; [eapply X5; eauto|]. rewrite X4, N.eqb_refl. unfold find_item.
    destruct (find (fun gi => fst gi =? g) items) as [[g2 i2]|] eqn:F.
    + apply find_some in F. destruct F as [F1 F2]. cbn [fst] in F2. apply N.eqb_eq in F2. subst g2. cbn [snd]. f_equal.
      clear - X1 Hin F1. induction items as [|[g0 i0] t IH]; [contradiction|]. cbn [map fst] in X1. inversion X1 as [|? ? N1 N2]; subst.
      destruct Hin as [Hin|Hin], F1 as [F1|F1]; try (apply IH; assumption).
      * congruence.
      * injection Hin as -> ->. exfalso. apply N1, in_map_iff. exists (g, i2). auto.
      * injection F1 as -> ->. exfalso. apply N1, in_map_iff. exists (g, i). auto.
    + exfalso. apply find_none with (x := (g, i)) in F; [|exact Hin]. cbn [fst] in F. rewrite N.eqb_refl in F. discriminate.
  - intros h' g Hor. rewrite X4. destruct (h' =? h2) eqn:E; [|reflexivity]. apply N.eqb_eq in E.
    destruct Hor as [Hor|Hor]; [congruence|]. apply find_item_none in Hor. rewrite Hor. reflexivity.
Qed.

Definition quiet_env : penv := MkEnv (fun _ _ => (false, [])) (fun _ _ _ => (true, [])) (fun _ _ => []) (fun _ _ => None).
Lemma quiet_env_quiet : quiet quiet_env.
Proof. repeat split. Qed.
Example protocol_install_multiple_ex :
  fst (fst (svc_install_multiple 5 quiet_env demo 2 [(8, 5); (9, 6); (7, 1)])) = Failed InvalidParameter /\
  installed (fst (snd (svc_install_multiple 5 quiet_env demo 2 [(8, 5); (9, 6); (7, 1)]))) 2 8 = None /\
  fst (svc_install_multiple 5 quiet_env demo 0 [(8, 5); (9, 6)]) = (Success, 3).
Proof. repeat apply conj; vm_compute; reflexivity. Qed.

(** UninstallMultipleProtocolInterfaces is all or nothing while the handle keeps some other protocol. *)
Theorem protocol_uninstall_multiple_partial fuel env s h items g0 i0 :
  quiet env -> shist s -> installed (fst s) h g0 = Some i0 -> ~ In g0 (map fst items) ->
  let '(st, s') := svc_uninstall_multiple fuel env s h items in
  match st with
  | Success => (forall g i, In (g, i) items -> installed (fst s) h g = Some i /\ installed (fst s') h g = None) /\
      (forall h' g, h' <> h \/ ~ In g (map fst items) -> installed (fst s') h' g = installed (fst s) h' g)
  | _ => forall h' g, installed (fst s') h' g = installed (fst s) h' g
  end.
Proof.
  intros Q H Hg Hn. unfold svc_uninstall_multiple. destruct (h =? 0); [reflexivity|].
  pose proof (uninstall_list_effect fuel env h g0 i0 items s [] (fun h g => installed (fst s) h g) Q H) as X.
  specialize (X ltac:(constructor) Hg Hn ltac:(intros ? ? [])).
  specialize (X ltac:(intros; cbn [existsb]; rewrite andb_false_r; reflexivity)).
  destruct (uninstall_list fuel env s h items []) as [st s']. destruct st; try exact X. cbn [app] in X. destruct X as (X1 & X2). split.
  - intros g i Hin. split; [apply X1, Hin|]. rewrite X2, N.eqb_refl.
    assert (existsb (fun gi => fst gi =? g) items = true) as ->; [|reflexivity].
    apply existsb_exists. exists (g, i). cbn [fst]. rewrite N.eqb_refl. auto.
  - intros h' g Hor. rewrite X2. destruct (h' =? h) eqn:E; [|reflexivity]. apply N.eqb_eq in E. destruct Hor as [Hor|Hor]; [congruence|].
    cbn [andb]. destruct (existsb (fun gi => fst gi =? g) items) eqn:Ex; [|reflexivity]. exfalso. apply Hor.
    apply existsb_exists in Ex. destruct Ex as ([g1 i1] & Hin & Eg). cbn [fst] in Eg. apply N.eqb_eq in Eg. subst.
    apply in_map_iff. exists (g, i1). auto.
Qed.
Example protocol_uninstall_multiple_ex :
  let s := calls demo [OInstall (Some 2) 9 1] in
  installed (fst s) 2 7 = Some 200 /\ fst (svc_uninstall_multiple 5 quiet_env s 2 [(9, 1); (8, 3)]) = Failed InvalidParameter /\
  installed (fst (snd (svc_uninstall_multiple 5 quiet_env s 2 [(9, 1); (8, 3)]))) 2 9 = Some 1.
Proof. repeat apply conj; vm_compute; reflexivity. Qed.

(** Refuted without that: when the last protocol of the handle was removed before the failure, the handle is gone
    and the rollback restores nothing. *)
Theorem protocol_uninstall_multiple_atomic_refuted :
  exists s h items, shist s /\ fst (svc_uninstall_multiple 5 quiet_env s h items) = Failed InvalidParameter /\
    live (fst s) h /\ ~ live (fst (snd (svc_uninstall_multiple 5 quiet_env s h items))) h.
Proof.
  exists demo, 2, [(7, 200); (8, 3)]. split; [exact demo_hist|]. split; [vm_compute; reflexivity|].
  split; [exists 7, 200; vm_compute; reflexivity|]. intros L.
  pose proof (protocol_services_reachable 5 quiet_env demo demo_hist) as (_ & _ & _ & _ & _ & _ & R & _). specialize (R 2 [(7, 200); (8, 3)]).
  apply (hist_live _ _ _ R) in L. apply L. vm_compute. reflexivity.
Qed.

(** The uninstall service: success removes exactly that interface; otherwise every installation stays, when the
    callbacks make no protocol calls. *)
Theorem protocol_svc_uninstall fuel env s h g i :
  quiet env -> shist s ->
  let '(st, s') := core_uninstall fuel env s h g i in
  match st with
  | Success => installed (fst s) h g = Some i /\
      forall h' g', installed (fst s') h' g' = if (h' =? h) && (g' =? g) then None else installed (fst s) h' g'
  | _ => forall h' g', installed (fst s') h' g' = installed (fst s) h' g'
  end.
Proof. intros Q H. pose proof (core_uninstall_quiet fuel env s h g i Q H) as X. destruct (core_uninstall fuel env s h g i) as [st s']. destruct st; exact X. Qed.
Theorem protocol_svc_uninstall_unused fuel env s h g i :
  shist s -> installed (fst s) h g = Some i -> (forall a c x, ~ held (fst s) h g a c x) ->
  fst (core_uninstall (S fuel) env s h g i) = Success.
Proof.
  intros H Hi Hn. destruct (core_uninstall_fresh fuel env s h g i H Hi) as (s' & -> & _); [|reflexivity].
  intros a c x. specialize (Hn a c x). unfold held in Hn. lia.
Qed.

(** Refuted: a failed uninstall leaves the opens alone.  The informational opens are dropped although another open
    makes the call fail. *)
Theorem protocol_svc_uninstall_failure_keeps_opens_refuted :
  exists s h g i a, shist s /\ fst (core_uninstall 5 quiet_env s h g i) = Failed AccessDenied /\
    held (fst s) h g a None 0x2 /\ ~ held (fst (snd (core_uninstall 5 quiet_env s h g i))) h g a None 0x2.
Proof.
  set (ops := [OInstall None 7 100; OInstall None 7 200; OOpen 1 7 (Some 2) None 2; OOpen 1 7 (Some 2) (Some 2) 8]).
  exists (prun (pdb_new 1 10) [] ops), 1, 7, 100, 2. split; [apply prun_hist, hist_new|]. split; [vm_compute; reflexivity|].
  split; [vm_compute; discriminate|]. intros X. apply X. vm_compute. reflexivity.
Qed.

(** Refuted: an interface only looked up with HandleProtocol can be uninstalled.  If the image that looked it up is
    gone, the uninstall service fails with AccessDenied for ever. *)
Theorem protocol_svc_uninstall_dead_agent_refuted :
  exists s h g i, shist s /\ installed (fst s) h g = Some i /\
    (forall a c x, held (fst s) h g a c x -> x = 0x1) /\
    fst (core_uninstall 5 quiet_env s h g i) = Failed AccessDenied.
Proof.
  set (ops := [OInstall None 7 100; OInstall None 9 200; OOpen 1 7 (Some 2) None 1; OUninstall 2 9 200]).
  exists (prun (pdb_new 1 10) [] ops), 1, 7, 100. pose proof (prun_hist ops _ _ (hist_new 1 10)) as H. split; [exact H|].
  split; [vm_compute; reflexivity|]. split; [|vm_compute; reflexivity].
  intros a c x Hh. destruct (held_usage _ _ _ _ _ _ _ H Hh) as (it & u & G & _ & Hu & _ & _ & <-).
  vm_compute in G. injection G as <-. cbn in Hu. destruct Hu as [<-|[]]. reflexivity.
Qed.

(** Refuted: LocateProtocol never crashes.  With a registration key whose handle has lost the protocol (or with a key
    registered for another protocol) it panics. *)
Theorem protocol_svc_locate_protocol_no_panic_refuted :
  exists s g r, shist s /\ registration (fst s) r = Some (g, 55) /\ fst (fst (svc_locate_protocol s g r)) = Panicked.
Proof.
  set (ops := [ORegister 8 55; OInstall None 8 1; OUninstall 1 8 1]).
  exists (prun (pdb_new 1 10) [] ops), 8, 1. split; [apply prun_hist, hist_new|]. split; vm_compute; reflexivity.
Qed.
(** Without a key it never panics and finds an installed interface. *)
Theorem protocol_svc_locate_protocol_plain s g :
  shist s ->
  match svc_locate_protocol s g 0 with
  | (Success, Some i, _) => exists h, installed (fst s) h g = Some i
  | (Failed NotFound, Some 0, _) => forall h, installed (fst s) h g = None
  | _ => False
  end.
Proof.
  intros H. unfold svc_locate_protocol. cbn [N.eqb]. pose proof (protocol_locate_protocol _ _ g H) as X.
  unfold call. destruct (pstep (snd s) (OLocateProtocol g)) as [r d'].
  destruct r; try contradiction; [destruct X as (_ & h & X & _); eauto|]. cbn [of_out]. destruct X as (_ & -> & X). exact X.
Qed.

(** LocateHandle: the reported size is exact and the list is complete when it fits. *)
Theorem protocol_svc_locate_handle s g size :
  shist s ->
  match svc_locate_handle s (SByProtocol g) size with
  | (Success, need, l, _) => need = 8 * N.of_nat (length l) /\ need <= size /\ NoDup l /\
      forall h, In h l <-> exists i, installed (fst s) h g = Some i
  | (Failed BufferTooSmall, need, l, _) => l = [] /\ size < need /\
      exists full, need = 8 * N.of_nat (length full) /\ NoDup full /\ forall h, In h full <-> exists i, installed (fst s) h g = Some i
  | (Failed NotFound, need, l, _) => l = [] /\ need = size /\ forall h, installed (fst s) h g = None
  | _ => False
  end.
Proof.
  intros H. unfold svc_locate_handle, call. pose proof (protocol_locate_handles _ _ (Some g) H) as X.
  destruct (pstep (snd s) (OLocate (Some g))) as [r d']. destruct r; try contradiction.
  - destruct X as (_ & Hne & Hnd & Hin & _). destruct l as [|x l]; [congruence|]. destruct (size <? N.of_nat (length (x :: l)) * 8) eqn:E.
    + split; [reflexivity|]. split; [lia|]. exists (x :: l). split; [lia|]. split; [exact Hnd|exact Hin].
    + split; [lia|]. split; [lia|]. split; [exact Hnd|exact Hin].
  - destruct X as (_ & -> & Hn). cbn [of_out]. split; [reflexivity|]. split; [reflexivity|]. intros h. specialize (Hn h).
    cbn [has_protocol] in Hn. destruct (installed (fst s) h g); [exfalso; eauto|reflexivity].
Qed.
(** Refuted: a LocateHandle by registration key that reports BUFFER_TOO_SMALL can be repeated.  The first call has
    already consumed the handle. *)
Theorem protocol_locate_by_key_retry_refuted :
  exists s key h need s1, shist s /\ waiting (fst s) key h = true /\
    svc_locate_handle s (SByRegister key) 0 = (Failed BufferTooSmall, need, [], s1) /\
    fst (fst (fst (svc_locate_handle s1 (SByRegister key) need))) = Failed NotFound.
Proof.
  exists demo, 1, 1. do 2 eexists. split; [exact demo_hist|]. split; [vm_compute; reflexivity|].
  split; [vm_compute; reflexivity|]. vm_compute. reflexivity.
Qed.

(** Reinstall: success replaces the interface and nothing else; failure keeps every installation (callbacks quiet,
    the internal marker protocol not in use). *)
Theorem protocol_svc_reinstall fuel env s h g old new :
  quiet env -> shist s -> g <> DUMMY_GUID -> (forall h', installed (fst s) h' DUMMY_GUID = None) ->
  let '(st, s') := svc_reinstall (S fuel) env s h g old new in
  match st with
  | Success => installed (fst s) h g = Some old /\
      forall h' g', installed (fst s') h' g' = if (h' =? h) && (g' =? g) then Some new else installed (fst s) h' g'
  | _ => forall h' g', installed (fst s') h' g' = installed (fst s) h' g'
  end.
Proof.
  intros Q H Hg Hd. unfold svc_reinstall.
  pose proof (fun r d' => protocol_install_outcome (fst s) (snd s) (Some h) DUMMY_GUID 0 r d') as PO.
  destruct (call s (OInstall (Some h) DUMMY_GUID 0)) as [r s1] eqn:E1.
  pose proof (call_eq _ _ _ _ H E1) as (H1 & T1 & P1). specialize (PO _ _ H P1).
  destruct PO as [(_ & _ & evs & ->)|(_ & -> & _)].
  2: { cbn [of_out]. intros. rewrite T1. reflexivity. }
  assert (V1 : forall h' g', installed (fst s1) h' g' = if (h' =? h) && (g' =? DUMMY_GUID) then Some 0 else installed (fst s) h' g').
  { intros. rewrite T1. reflexivity. }
  assert (NG : forall h', (h' =? h) && (g =? DUMMY_GUID) = false) by (intros h'; destruct (g =? DUMMY_GUID) eqn:X; [apply N.eqb_eq in X; congruence|apply andb_false_r]).
  assert (N1 : forall a c x, opens (fst s1) h DUMMY_GUID a c x = 0).
  { intros. rewrite T1. cbn [opens]. rewrite !N.eqb_refl. reflexivity. }
  (* the marker is removed again from any later state that still has it *)
  assert (Rm : forall s3, shist s3 -> installed (fst s3) h DUMMY_GUID = Some 0 ->
     (forall a c x, opens (fst s3) h DUMMY_GUID a c x = 0) ->
     forall h' g', installed (fst (snd (call s3 (OUninstall h DUMMY_GUID 0)))) h' g' =
       if (h' =? h) && (g' =? DUMMY_GUID) then None else installed (fst s3) h' g').
  { intros s3 H3 I3 O3. destruct (call s3 (OUninstall h DUMMY_GUID 0)) as [r3 s4] eqn:E4. cbn [snd].
    pose proof (call_eq _ _ _ _ H3 E4) as (_ & T4 & P4). pose proof (protocol_uninstall_outcome _ _ h DUMMY_GUID 0 H3) as U. rewrite P4 in U.
    destruct U as (U & _). assert (r3 = OutUnit) as -> by (apply U; [exact I3|intros a c x X; apply X, O3]).
    intros. rewrite T4. reflexivity. }
  pose proof (core_uninstall_hist (S fuel) env s1 h g old H1) as H2.
  pose proof (core_uninstall_quiet (S fuel) env s1 h g old Q H1) as C2.
  pose proof (core_uninstall_opens (S fuel) env s1 h g old Q H1 h DUMMY_GUID) as O2.
  assert (Hneq : (h =? h) && (DUMMY_GUID =? g) = false) by (destruct (DUMMY_GUID =? g) eqn:X; [apply N.eqb_eq in X; congruence|apply andb_false_r]).
  specialize (O2 Hneq).
  destruct (core_uninstall (S fuel) env s1 h g old) as [st s2]. cbn [snd] in H2, O2.
  assert (Fail : keeps s1 s2 -> forall h' g', installed (fst (snd (call s2 (OUninstall h DUMMY_GUID 0)))) h' g' = installed (fst s) h' g').
  { intros K h' g'. rewrite (Rm s2 H2).
    - rewrite K, V1. destruct ((h' =? h) && (g' =? DUMMY_GUID)) eqn:E; [|reflexivity]. apply andb_true_iff in E. destruct E as [Ea Eb].
      apply N.eqb_eq in Ea, Eb. subst. symmetry. apply Hd.
    - rewrite K, V1, !N.eqb_refl. reflexivity.
    - intros. rewrite O2. apply N1. }
  destruct st; try (apply Fail; exact C2). destruct C2 as (Ho & V2).
  assert (I2d : installed (fst s2) h DUMMY_GUID = Some 0) by (rewrite V2, Hneq, V1, !N.eqb_refl; reflexivity).
  assert (I2g : installed (fst s2) h g = None) by (rewrite V2, !N.eqb_refl; reflexivity).
  assert (L2 : live (fst s2) h) by (exists DUMMY_GUID, 0; exact I2d).
  pose proof (core_install_quiet env s2 (Some h) g new Q H2) as C3.
  destruct (core_install_some_ok env s2 h g new Q H2 L2 I2g) as (s3 & E3 & H3 & V3). rewrite E3 in *.
  destruct C3 as (_ & _ & _ & _ & O3). specialize (O3 h DUMMY_GUID Hneq).
  destruct Q as (_ & _ & Qc). rewrite Qc. cbn [calls]. split.
  - rewrite V1, NG in Ho. exact Ho.
  - intros h' g'. rewrite (Rm s3 H3).
    + rewrite V3, V2, V1. destruct ((h' =? h) && (g' =? DUMMY_GUID)) eqn:E.
      * apply andb_true_iff in E. destruct E as [Ea Eb]. apply N.eqb_eq in Ea, Eb. subst. rewrite Hneq. symmetry. apply Hd.
      * destruct ((h' =? h) && (g' =? g)) eqn:Eg; reflexivity.
    + rewrite V3, Hneq. exact I2d.
    + intros. rewrite O3, O2. apply N1.
Qed.
Example protocol_svc_reinstall_ex :
  fst (svc_reinstall 5 quiet_env demo 2 7 200 201) = Success /\
  installed (fst (snd (svc_reinstall 5 quiet_env demo 2 7 200 201))) 2 7 = Some 201 /\
  fst (svc_reinstall 5 quiet_env demo 1 7 999 201) = Failed NotFound.
Proof. repeat apply conj; vm_compute; reflexivity. Qed.

Print Assumptions protocol_get_interface.
Print Assumptions protocol_handle_valid.
Print Assumptions protocol_null_never_live.
Print Assumptions protocol_locate_handles.
Print Assumptions protocol_locate_protocol.
Print Assumptions protocol_new_handle.
Print Assumptions protocol_install_outcome.
Print Assumptions protocol_protocols_on_handle.
Print Assumptions protocol_registered_protocols.
Print Assumptions protocol_init.
Print Assumptions protocol_one_claim.
Print Assumptions protocol_open_outcome.
Print Assumptions protocol_failure_unchanged.
Print Assumptions protocol_no_panic.
Print Assumptions protocol_open_report.
Print Assumptions protocol_child_handles.
Print Assumptions protocol_uninstall_outcome.
Print Assumptions protocol_uninstall_effect.
Print Assumptions protocol_close_outcome.
Print Assumptions protocol_open_close_restores.
Print Assumptions protocol_close_one_open_refuted.
Print Assumptions protocol_close_dead_agent_refuted.
Print Assumptions protocol_next_for_registration.
Print Assumptions protocol_registration_starts_empty.
Print Assumptions protocol_install_events.
Print Assumptions protocol_each_install_delivered_refuted.
Print Assumptions protocol_delivered_handle_has_protocol_refuted.
Print Assumptions protocol_services_reachable.
Print Assumptions protocol_svc_open_interface.
Print Assumptions protocol_svc_open_claims.
Print Assumptions protocol_install_multiple_atomic.
Print Assumptions protocol_uninstall_multiple_partial.
Print Assumptions protocol_uninstall_multiple_atomic_refuted.
Print Assumptions protocol_svc_uninstall.
Print Assumptions protocol_svc_uninstall_unused.
Print Assumptions protocol_svc_uninstall_failure_keeps_opens_refuted.
Print Assumptions protocol_svc_uninstall_dead_agent_refuted.
Print Assumptions protocol_svc_locate_protocol_no_panic_refuted.
Print Assumptions protocol_svc_locate_protocol_plain.
Print Assumptions protocol_svc_locate_handle.
Print Assumptions protocol_locate_by_key_retry_refuted.
Print Assumptions protocol_svc_reinstall.
