(** Components: what a platform relies on when it hands components, configurations and services to the core. *)
From Verif Require Import Base.Prelude Base.Omap Comp.Model Comp.Spec Comp.Proofs Comp.Params Comp.Dispatch Comp.Main Comp.Replay.
From Coq Require Import Permutation.
Local Open Scope N_scope.

Section Props.
Variables (default : N -> N) (hob_guid : N -> N) (hob_parse : N -> N -> N).
Notation start := (start default hob_guid hob_parse).
Notation build_all := (build_all default hob_guid).

(** Enough steps for the dispatch loop: it ends after at most that many passes. *)
Definition enough (fuel : nat) (bs : list build) (drv : list bool) : Prop := (length (comps_of bs) + length drv < fuel)%nat.

(** ** C60: dispatch *)

(** The dispatch ends, and only a panic can keep it from completing: a component with conflicting parameters, with a
    tuple among its parameters, or (debug builds) one that fails. *)
Theorem component_dispatch_completes fuel dbg bs hobs drv : enough fuel bs drv ->
  (forall c, In c (comps_of bs) -> c_input c = true /\ Forall flat (c_params c) /\ compatible (c_params c)
             /\ (dbg = true -> forall s gs, fst (c_body c s gs) = true)) ->
  exists s cs log, start fuel dbg bs hobs drv = Some (Ok (s, cs, log)).
Proof.
  intros L H. destruct (start_ok default hob_guid hob_parse fuel dbg bs hobs drv L) as [(s & cs & log & E & _)|(_ & [(_ & c & Hc & N)|N])].
  - exists s, cs, log. exact E.
  - elim N. apply H, Hc.
  - elim N. apply Forall_forall. intros c Hc. destruct (H c Hc) as (A & B & C & D). split; [split; auto|exact D].
Qed.

(** Every component runs once or is left over; none runs twice, none is lost. *)
Theorem component_runs_at_most_once fuel dbg bs hobs drv s cs log : enough fuel bs drv ->
  start fuel dbg bs hobs drv = Some (Ok (s, cs, log)) ->
  Permutation (map c_id (comps_of bs)) (map r_id log ++ map c_id cs).
Proof.
  intros L E. destruct (start_ok default hob_guid hob_parse fuel dbg bs hobs drv L) as [(s' & cs' & log' & E' & _ & P & _)|(E' & _)]; [|congruence].
  rewrite E in E'. injection E' as <- <- <-. apply P.
Qed.

(** A component that ran had all its parameters available, and was handed exactly what the storage holds under their
    types. *)
Theorem component_gets_its_parameters fuel dbg bs hobs drv s cs log e : enough fuel bs drv ->
  start fuel dbg bs hobs drv = Some (Ok (s, cs, log)) -> In e log ->
  exists c v, In c (comps_of bs) /\ c_id c = r_id e /\ shows (r_store e) v /\ r_effects e = snd (c_body c (r_store e) (r_grants e))
    /\ (Forall flat (c_params c) -> Forall2 (given (r_store e) v) (c_params c) (r_grants e)).
Proof.
  intros L E He. destruct (start_ok default hob_guid hob_parse fuel dbg bs hobs drv L) as [(s' & cs' & log' & E' & _ & P & _)|(E' & _)]; [|congruence].
  rewrite E in E'. injection E' as <- <- <-. destruct (pa_ent _ _ _ P e He) as (c & Hc & A & B & C & D).
  exists c, (view_of (r_store e)). split; [exact Hc|]. split; [auto|]. split; [apply wf_shows, B|]. auto.
Qed.

(** A component that is left over waits for a service nobody published, for a HOB that is not in the list, or for a
    mutable configuration that is locked. *)
Theorem component_left_behind fuel dbg bs hobs drv s cs log c : enough fuel bs drv ->
  start fuel dbg bs hobs drv = Some (Ok (s, cs, log)) -> In c cs ->
  (exists ty, In (PService ty) (c_params c) /\ get_service s ty = Ok None)
  \/ (exists ty, In (PHob ty) (c_params c) /\ hobs_for hob_guid hob_parse ty hobs = [])
  \/ (exists ty x, In (PConfigMut ty) (c_params c) /\ get_config s ty = Ok (Some (true, x))).
Proof.
  intros L E Hc. destruct (start_ok default hob_guid hob_parse fuel dbg bs hobs drv L) as [(s' & cs' & log' & E' & W & P & F & Wk & _ & Lk & [B R] & Hb & _)|(E' & _)]; [|congruence].
  rewrite E in E'. injection E' as <- <- <-. rewrite Forall_forall in F, Wk.
  destruct (Wk c Hc) as (p & Hp & Sp & N). destruct (F c Hc) as (sts & _ & F2).
  assert (St : exists st, st_ok s p st).
  { clear - F2 Hp. induction F2 as [|q st ps sts Hq F2 IH]; [destruct Hp|]. destruct Hp as [->|Hp]; [exists st; exact Hq|auto]. }
  destruct St as [st St].
  assert (Cfg : forall ty i, om_get (s_config_idx s) ty = Some i -> exists x, v_config (view_of s) ty = Some (true, x)).
  { intros ty i Hi. cbn. unfold cfgs, look. rewrite Hi. destruct (sv_get (s_configs s) i) as [cf|] eqn:Ec; [|elim (wf_cf s W _ _ Hi Ec)].
    exists (snd (cf_val cf)). pose proof (Lk ty (snd (cf_val cf))) as Lt. cbn in Lt. unfold cfgs, look in Lt. rewrite Hi, Ec in Lt. cbn in *.
    unfold cview in *. destruct (cf_locked cf); [reflexivity|elim Lt; reflexivity]. }
  destruct p; cbn in N, Sp; try (elim N; exact I); try contradiction; try (elim N; assumption).
  - destruct st as [i| |]; try contradiction. elim N. exact (Cfg _ _ St).
  - right. right. destruct st as [i| |]; try contradiction. destruct (Cfg _ _ St) as [x Hx]. exists ty, x. split; [exact Hp|].
    destruct (wf_shows s W ty) as (-> & _). rewrite Hx. reflexivity.
  - left. exists ty. split; [exact Hp|]. destruct (wf_shows s W ty) as (_ & -> & _).
    destruct (v_service (view_of s) ty) eqn:Ev; [|reflexivity]. elim N. cbn in Ev. rewrite Ev. discriminate.
  - right. left. exists ty. split; [exact Hp|]. apply Hb.
    + cbn [view_of v_hob]. destruct (match hobz s ty with Some l => map snd l | None => [] end); [reflexivity|]. elim N. discriminate.
    + destruct (pa_same _ _ _ P c Hc) as (c0 & H0 & (_ & Ep & _)). exists c0. split; [exact H0|]. rewrite <- Ep. unfold all_leaves.
      apply in_flat_map. exists (PHob ty). split; [exact Hp|left; reflexivity].
Qed.

(** So a component that only reads configurations, or takes its parameters optionally, always runs. *)
Definition undemanding (p : param) : Prop :=
  match p with PService _ | PHob _ | PConfigMut _ => False | _ => True end.
Theorem undemanding_component_runs fuel dbg bs hobs drv s cs log c : enough fuel bs drv ->
  start fuel dbg bs hobs drv = Some (Ok (s, cs, log)) -> NoDup (map c_id (comps_of bs)) -> In c (comps_of bs) -> Forall undemanding (c_params c) ->
  In (c_id c) (map r_id log).
Proof.
  intros L E ND Hc U. pose proof (component_runs_at_most_once _ _ _ _ _ _ _ _ L E) as Pm.
  assert (Hi : In (c_id c) (map r_id log ++ map c_id cs)) by (apply (Permutation_in _ Pm), in_map, Hc).
  apply in_app_or in Hi. destruct Hi as [Hi|Hi]; [exact Hi|exfalso]. apply in_map_iff in Hi. destruct Hi as (c' & Ei & Hc').
  assert (Ep : c_params c' = c_params c).
  { destruct (start_ok default hob_guid hob_parse fuel dbg bs hobs drv L) as [(s' & cs' & log' & E' & _ & P & _)|(E' & _)]; [|congruence].
    rewrite E in E'. injection E' as <- <- <-. destruct (pa_same _ _ _ P c' Hc') as (c0 & H0 & (Ei0 & Ep & _)). rewrite Ep. f_equal.
    assert (Ei' : c_id c0 = c_id c) by congruence. clear - ND H0 Hc Ei'. revert ND H0 Hc. generalize (comps_of bs). induction l as [|x l IH]; intros ND H0 Hc; [destruct H0|].
    cbn in ND. inversion ND as [|? ? N ND']; subst. destruct H0 as [->|H0], Hc as [->|Hc]; auto.
    - elim N. rewrite Ei'. apply in_map, Hc.
    - elim N. rewrite <- Ei'. apply in_map, H0. }
  rewrite Forall_forall in U.
  destruct (component_left_behind _ _ _ _ _ _ _ _ c' L E Hc') as [(ty & H & _)|[(ty & H & _)|(ty & x & H & _)]]; rewrite Ep in H; exact (U _ H).
Qed.

(** A service that a component publishes is there for every component that runs after it, and for those left over. *)
Theorem published_service_is_visible fuel dbg bs hobs drv s cs l1 e1 l2 ty : enough fuel bs drv ->
  start fuel dbg bs hobs drv = Some (Ok (s, cs, l1 ++ e1 :: l2)) -> published e1 ty ->
  (forall e2, In e2 l2 -> exists x, get_service (r_store e2) ty = Ok (Some x))
  /\ (cs <> [] -> exists x, get_service s ty = Ok (Some x)).
Proof.
  intros L E Pu. destruct (start_ok default hob_guid hob_parse fuel dbg bs hobs drv L)
    as [(s' & cs' & log' & E' & W & P & _ & _ & _ & _ & _ & _ & _ & Hp & Hq & _)|(E' & _)]; [|congruence].
  rewrite E in E'. injection E' as <- <- <-.
  assert (K : forall s0, wf s0 -> v_service (view_of s0) ty <> None -> exists x, get_service s0 ty = Ok (Some x)).
  { intros s0 W0 H. destruct (wf_shows s0 W0 ty) as (_ & -> & _). destruct (v_service (view_of s0) ty) as [x|]; [exists x; reflexivity|elim H; reflexivity]. }
  split.
  - intros e2 H2. apply K; [|exact (Hp l1 e1 l2 e2 ty eq_refl H2 Pu)].
    destruct (pa_ent _ _ _ P e2) as (c & _ & _ & We & _); [apply in_or_app; right; right; exact H2|exact We].
  - intros N. apply K; [exact W|]. apply (Hq e1 ty); auto. apply in_or_app. right. left. reflexivity.
Qed.

(** A service given to the core before the start is there for every component. *)
Theorem given_service_is_visible fuel dbg bs hobs drv s cs log e ty x : enough fuel bs drv ->
  start fuel dbg bs hobs drv = Some (Ok (s, cs, log)) -> In (BService ty x) bs -> In e log ->
  exists y, get_service (r_store e) ty = Ok (Some y).
Proof.
  intros L E Hin He. destruct (start_ok default hob_guid hob_parse fuel dbg bs hobs drv L)
    as [(s' & cs' & log' & E' & W & P & _ & _ & _ & _ & _ & _ & _ & _ & _ & Hq)|(E' & _)]; [|congruence].
  rewrite E in E'. injection E' as <- <- <-.
  assert (H : v_service (built default bs) ty <> None).
  { clear - Hin. unfold built. apply in_split in Hin. destruct Hin as (l1 & l2 & ->). rewrite fold_left_app. cbn [fold_left].
    set (v := build_view default _ _). assert (Hv : v_service v ty <> None) by (cbn; unfold at_type; rewrite N.eqb_refl; discriminate).
    clearbody v. revert v Hv. induction l2 as [|b l2 IH]; intros v Hv; [exact Hv|]. cbn. apply IH.
    assert (Kl : forall ls w, v_service w ty <> None -> v_service (fold_left (init_leaf default) ls w) ty <> None).
    { induction ls as [|p ls IHl]; intros w Hw; [exact Hw|]. cbn. apply IHl. destruct p; cbn; auto; [destruct (v_config w ty0); exact Hw|destruct (v_config w ty0) as [[? ?]|]; exact Hw]. }
    destruct b; cbn; try (apply Kl, Hv); [exact Hv|]. unfold at_type. destruct (ty =? ty0); [discriminate|exact Hv]. }
  specialize (Hq e ty He H). destruct (pa_ent _ _ _ P e He) as (c & _ & _ & We & _).
  destruct (wf_shows _ We ty) as (_ & -> & _). destruct (v_service (view_of (r_store e)) ty) as [y|]; [exists y; reflexivity|elim Hq; reflexivity].
Qed.

(** ** C61: conflicting parameters *)

(** Debug builds reject exactly the components with conflicting parameters, in whatever order the parameters come. *)
Theorem conflicting_parameters_rejected bs :
  build_all true (new_storage, []) bs = Panic <-> exists c, In c (comps_of bs) /\ ~ compatible (c_params c).
Proof.
  destruct (build_all_ok default hob_guid true bs [] new_storage [] (built_new default hob_guid)) as [(s & cs & E & _ & K)|(_ & E & N)]; rewrite E.
  - split; [discriminate|]. intros (c & Hc & N). elim N. apply (K eq_refl c Hc).
  - tauto.
Qed.
Theorem release_build_accepts_any bs : exists s cs, build_all false (new_storage, []) bs = Ok (s, cs).
Proof.
  destruct (build_all_ok default hob_guid false bs [] new_storage [] (built_new default hob_guid)) as [(s & cs & E & _ & K)|(X & _)]; [|discriminate].
  exists s, cs. exact E.
Qed.

(** Conflicts do not depend on the order. *)
Theorem conflict_symmetric p q : conflict p q <-> conflict q p.
Proof. destruct p, q; cbn; try tauto; split; intros H; symmetry; exact H. Qed.

(** ** C62: the storage *)

(** Before the dispatch the storage shows, under every type, what was put there last; a configuration parameter brings
    its default, and a ConfigMut parameter unlocks. *)
Theorem built_storage_shows dbg bs s cs : build_all dbg (new_storage, []) bs = Ok (s, cs) -> shows s (built default bs).
Proof.
  intros E. destruct (build_all_ok default hob_guid dbg bs [] new_storage [] (built_new default hob_guid)) as [(s' & cs' & E' & B & _)|(_ & E' & _)]; [|congruence].
  rewrite E in E'. injection E' as <- <-. apply (shows_veq _ _ _ (wf_shows s (bo_wf _ _ _ _ _ B)) (bo_v _ _ _ _ _ B)).
Qed.

(** Hob<T> delivers the data of every guided HOB with T's GUID, in the order of the list. *)
Theorem hob_parameter_delivers fuel dbg bs hobs drv s cs log e ty : enough fuel bs drv ->
  start fuel dbg bs hobs drv = Some (Ok (s, cs, log)) -> In e log -> wants_hob bs ty ->
  get_hob (r_store e) ty = Ok (hobs_for hob_guid hob_parse ty hobs).
Proof.
  intros L E He Hw. destruct (start_ok default hob_guid hob_parse fuel dbg bs hobs drv L)
    as [(s' & cs' & log' & E' & W & P & _ & _ & _ & _ & _ & _ & Hh & _)|(E' & _)]; [|congruence].
  rewrite E in E'. injection E' as <- <- <-. destruct (pa_ent _ _ _ P e He) as (c & _ & _ & We & _).
  destruct (wf_shows _ We ty) as (_ & _ & ->). rewrite (Hh e ty He Hw). reflexivity.
Qed.

(** After the start every configuration is locked. *)
Theorem configurations_end_locked fuel dbg bs hobs drv s cs log ty l x : enough fuel bs drv ->
  start fuel dbg bs hobs drv = Some (Ok (s, cs, log)) -> get_config s ty = Ok (Some (l, x)) -> l = true.
Proof.
  intros L E Hg. destruct (start_ok default hob_guid hob_parse fuel dbg bs hobs drv L)
    as [(s' & cs' & log' & E' & W & P & _ & _ & _ & Lk & _)|(E' & _)]; [|congruence].
  rewrite E in E'. injection E' as <- <- <-. destruct (wf_shows s W ty) as (Hc & _). rewrite Hg in Hc. injection Hc as Hc.
  destruct l; [reflexivity|]. elim (Lk ty x). cbn [view_of v_config]. symmetry. exact Hc.
Qed.

(** Over the whole start, when bodies do only what their parameters allow: the storage begins as it was built, with
    the HOBs; every component finds what the earlier ones left, with the commands queued so far carried out in order;
    all configurations are locked once between the two dispatches; nothing else changes. *)
Theorem storage_over_the_start fuel dbg bs hobs drv s cs log :
  start fuel dbg bs hobs drv = Some (Ok (s, cs, log)) -> Forall lawful (comps_of bs) ->
  exists v0 log1 x1 log2 v2 q2,
    (forall ty, v_config v0 ty = v_config (built default bs) ty /\ v_service v0 ty = v_service (built default bs) ty
       /\ (wants_hob bs ty -> v_hob v0 ty = hobs_for hob_guid hob_parse ty hobs) /\ (~ wants_hob bs ty -> v_hob v0 ty = []))
    /\ log = log1 ++ log2 /\ replay (v0, []) log1 x1 /\ replay (lock_view (fst x1), snd x1) log2 (v2, q2) /\ shows s v2.
Proof. apply start_replay. Qed.
End Props.

(** ** Examples and refutations *)
Definition dflt (ty : N) : N := 100 + ty.
Definition guid (ty : N) : N := 50 + ty / 2.
Definition prs (ty d : N) : N := d * 10 + ty.
Definition plain (id : N) (ps : list param) (effs : list effect) : comp := MkComp id ps None None true true (fun _ _ => (true, effs)).

(** A writer of configuration 1, a reader of it, a publisher of service 7 through Commands and its user, a HOB user. *)
Definition demo : list build :=
  [BService 5 55; BConfig 1 11;
   BComponent (plain 3 [PService 7; PBoot] []);
   BComponent (plain 1 [PConfig 1; POption (PService 9)] []);
   BComponent (plain 2 [PConfigMut 1; PCommands] [EWrite 1 12; ECommand (CmdService 7 77)]);
   BComponent (plain 4 [PHob 3; PService 5] []);
   BComponent (plain 6 [PService 8] [])].
Definition demo_hobs : list (N * N) := [(51, 4); (60, 5); (51, 6)].
Example component_demo_ex :
  enough 20 demo [true; false] /\
  match start dflt guid prs 20 true demo demo_hobs [true; false] with
  | Some (Ok (s, cs, log)) =>
    map r_id log = [2; 4; 3; 1] /\ map c_id cs = [6]
    /\ map r_grants log = [[GConfigMut 1 11; GCommands]; [GHob 3 [43; 63]; GService 5 55]; [GService 7 77; GBoot]; [GConfig 1 12; GNone]]
    /\ get_config s 1 = Ok (Some (true, 12))
  | _ => False
  end.
Proof. split; [unfold enough; cbn; lia|]. vm_compute. repeat split. Qed.

Example component_hypotheses_ex :
  (forall c, In c (comps_of demo) -> c_input c = true /\ Forall flat (c_params c) /\ compatible (c_params c)
             /\ (true = true -> forall s gs, fst (c_body c s gs) = true)) /\ NoDup (map c_id (comps_of demo)) /\ wants_hob demo 3.
Proof.
  split; [|split].
  - intros c Hc. cbn in Hc. repeat (destruct Hc as [<-|Hc]; [|]); try contradiction;
      (split; [reflexivity|]; split; [cbn; repeat constructor|]; split; [|intros; reflexivity]);
      unfold compatible; cbn; repeat constructor; cbn; auto.
  - cbn. repeat constructor; cbn; intuition discriminate.
  - exists (plain 4 [PHob 3; PService 5] []). split; cbn; auto 10.
Qed.
Example published_ex : published (MkRun 2 new_storage [GConfigMut 1 11; GCommands] [EWrite 1 12; ECommand (CmdService 7 77)]) 7.
Proof. exists 77. left. split; [right; left; left; reflexivity|right; left; reflexivity]. Qed.
Example conflicting_parameters_ex :
  build_all dflt guid true (new_storage, []) [BComponent (plain 1 [PConfig 1; POption (PConfigMut 1)] [])] = Panic
  /\ build_all dflt guid true (new_storage, []) [BComponent (plain 1 [PConfig 2; POption (PConfigMut 1)] [])] <> Panic.
Proof. vm_compute. split; [reflexivity|discriminate]. Qed.

Definition lawful_demo : list build :=
  [BConfig 1 11; BComponent (MkComp 2 [PConfigMut 1; PCommands] None None true true
    (fun _ gs => match gs with [GConfigMut 1 x; GCommands] => (true, [EWrite 1 (x + 1); ELock 1; ECommand (CmdService 7 77)]) | _ => (true, []) end));
   BComponent (plain 1 [PConfig 1; PService 7] [])].
Example lawful_ex : Forall lawful (comps_of lawful_demo)
  /\ match start dflt guid prs 20 true lawful_demo [] [] with
     | Some (Ok (s, [], [e1; e2])) => r_grants e2 = [GConfig 1 12; GService 7 77] /\ get_config s 1 = Ok (Some (true, 12))
     | _ => False
     end.
Proof.
  split; [|vm_compute; auto]. cbn. constructor; [|constructor; [intros s gs e []|constructor]].
  intros s gs e. cbn. destruct gs as [|[]]; cbn; try tauto. repeat (match goal with |- context [match ?x with _ => _ end] => destruct x end; cbn; try tauto).
  intros [<-|[<-|[<-|[]]]]; cbn.
  - eexists. apply Exists_cons_hd. left. reflexivity.
  - eexists. apply Exists_cons_hd. left. reflexivity.
  - apply Exists_cons_tl, Exists_cons_hd. left. reflexivity.
Qed.

(** A tuple among the parameters is not validated: a missing service inside it is a panic, not a wait; and a
    configuration inside it is handed out while it is still unlocked for a writer that has not run. *)
Theorem tuple_parameter_not_validated_refuted :
  exists bs, (forall c, In c (comps_of bs) -> compatible (c_params c) /\ c_input c = true)
    /\ start dflt guid prs 10 true bs [] [] = Some Panic.
Proof.
  exists [BComponent (plain 1 [PPair (PService 7) PBoot] [])]. split; [|vm_compute; reflexivity].
  intros c [<-|[]]. split; [unfold compatible; cbn; repeat constructor; auto|reflexivity].
Qed.
Theorem tuple_configuration_unlocked_refuted :
  exists bs s cs e1 e2, start dflt guid prs 10 true bs [] [] = Some (Ok (s, cs, [e1; e2]))
    /\ r_grants e1 = [GPair (GConfig 1 11) GBoot] /\ get_config (r_store e1) 1 = Ok (Some (false, 11))
    /\ r_effects e2 = [EWrite 1 12] /\ get_config s 1 = Ok (Some (true, 12)).
Proof.
  exists [BConfig 1 11; BComponent (plain 1 [PPair (PConfig 1) PBoot] []); BComponent (plain 2 [PConfigMut 1] [EWrite 1 12])].
  vm_compute. do 4 eexists. split; [reflexivity|]. auto.
Qed.

(** The documentation says a configuration is unlocked when a component needs it mutable (lib.rs:329-330): only if the
    component comes last.  A later with_config, or an add_config through Commands, locks it again and the component
    never runs. *)
Theorem config_mut_order_refuted :
  let w := BComponent (plain 1 [PConfigMut 1] [EWrite 1 12]) in
  (exists s log, start dflt guid prs 10 true [BConfig 1 11; w] [] [] = Some (Ok (s, [], log)) /\ map r_id log = [1])
  /\ (exists s c, start dflt guid prs 10 true [w; BConfig 1 11] [] [] = Some (Ok (s, [c], [])) /\ c_id c = 1).
Proof. vm_compute. split; do 2 eexists; split; reflexivity. Qed.
Theorem config_mut_relocked_by_command_refuted :
  exists s log c, start dflt guid prs 10 true
    [BComponent (plain 2 [PCommands] [ECommand (CmdConfig 1 13)]); BComponent (plain 1 [PConfigMut 1] [EWrite 1 12])] [] []
    = Some (Ok (s, [c], log)) /\ c_id c = 1.
Proof. vm_compute. do 3 eexists. split; reflexivity. Qed.

(** Parameters that alias pass the check: Commands or a HOB together with the whole storage held mutably. *)
Theorem aliasing_parameters_accepted_refuted :
  forall ps, In ps [[PCommands; PStorageMut]; [PHob 3; PStorageMut]; [PService 5; PStorageMut; PCommands]] ->
  exists s cs, build_all dflt guid true (new_storage, []) [BComponent (plain 1 ps [])] = Ok (s, cs).
Proof. intros ps [<-|[<-|[<-|[]]]]; vm_compute; do 2 eexists; reflexivity. Qed.

(** Release builds do not check at all: the conflict is found when the component runs, as a panic. *)
Theorem release_conflict_panics_refuted :
  exists bs, (forall c, In c (comps_of bs) -> Forall flat (c_params c) /\ c_input c = true)
    /\ start dflt guid prs 10 false bs [] [] = Some Panic.
Proof.
  exists [BComponent (plain 1 [POption (PConfigMut 1); POption (PConfigMut 1)] [])]. split; [|vm_compute; reflexivity].
  intros c [<-|[]]. split; [cbn; repeat constructor|reflexivity].
Qed.

(** A component that reports an error brings a debug build down; a release build carries on. *)
Theorem failing_component_panics_refuted :
  let c := MkComp 1 [PBoot] None None true true (fun _ _ => (false, [])) in
  start dflt guid prs 10 true [BComponent c] [] [] = Some Panic
  /\ exists s log, start dflt guid prs 10 false [BComponent c] [] [] = Some (Ok (s, [], log)) /\ map r_id log = [1].
Proof. vm_compute. split; [reflexivity|]. do 2 eexists. split; reflexivity. Qed.

(** What the last component queues through Commands is never carried out. *)
Theorem last_commands_lost_refuted :
  exists s log, start dflt guid prs 10 true [BComponent (plain 1 [PCommands] [ECommand (CmdService 7 77)])] [] [] = Some (Ok (s, [], log))
    /\ get_service s 7 = Ok None.
Proof. vm_compute. do 2 eexists. split; reflexivity. Qed.

Print Assumptions component_dispatch_completes.
Print Assumptions component_runs_at_most_once.
Print Assumptions component_gets_its_parameters.
Print Assumptions component_left_behind.
Print Assumptions undemanding_component_runs.
Print Assumptions published_service_is_visible.
Print Assumptions given_service_is_visible.
Print Assumptions conflicting_parameters_rejected.
Print Assumptions release_build_accepts_any.
Print Assumptions conflict_symmetric.
Print Assumptions built_storage_shows.
Print Assumptions hob_parameter_delivers.
Print Assumptions configurations_end_locked.
Print Assumptions storage_over_the_start.
Print Assumptions tuple_parameter_not_validated_refuted.
Print Assumptions tuple_configuration_unlocked_refuted.
Print Assumptions config_mut_order_refuted.
Print Assumptions config_mut_relocked_by_command_refuted.
Print Assumptions aliasing_parameters_accepted_refuted.
Print Assumptions release_conflict_panics_refuted.
Print Assumptions failing_component_panics_refuted.
Print Assumptions last_commands_lost_refuted.
