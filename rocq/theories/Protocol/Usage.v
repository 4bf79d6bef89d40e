(** Opens and closes. *)
From Verif Require Import Base.Prelude Base.Omap Protocol.Model Protocol.Spec Protocol.Proofs.
Local Open Scope N_scope.

Definition is_drv (u : usage) : bool := has_bit (u_attr u) OPEN_BY_DRIVER.
Definition is_exc (u : usage) : bool := has_bit (u_attr u) OPEN_EXCLUSIVE.
Definition is_claim (u : usage) : bool := is_drv u || is_exc u.

Definition attr_ok (attr : N) : Prop :=
  attr = 0x1 \/ attr = 0x2 \/ attr = 0x4 \/ attr = 0x8 \/ attr = 0x10 \/ attr = 0x20 \/ attr = 0x30.

Definition usage_ok (h : N) (u : usage) : Prop :=
  u_agent u <> None /\ attr_ok (u_attr u) /\ 1 <= u_count u /\ (u_attr u = 0x8 -> u_ctrl u <> None /\ u_ctrl u <> Some h).

Record inst_ok (h : N) (it : inst) : Prop := MkIok {
  io_use : Forall (usage_ok h) (i_usage it);
  io_drv : i_drv it = existsb is_drv (i_usage it);
  io_exc : i_exc it = existsb is_exc (i_usage it);
  io_one : (length (filter is_claim (i_usage it)) <= 1)%nat }.

(** Total open count of the entries for one agent, controller and attributes. *)
Definition same_key (a : N) (c : option N) (attr : N) (u : usage) : bool :=
  oeqb (u_agent u) (Some a) && oeqb (u_ctrl u) c && (u_attr u =? attr).
Fixpoint total (a : N) (c : option N) (attr : N) (l : list usage) : N :=
  match l with
  | [] => 0
  | u :: t => (if same_key a c attr u then u_count u else 0) + total a c attr t
  end.

Lemma total_app a c attr l1 l2 : total a c attr (l1 ++ l2) = total a c attr l1 + total a c attr l2.
Proof. induction l1; cbn [app total]; [lia|]. lia. Qed.

Lemma total_pos a c attr l h : Forall (usage_ok h) l ->
  (total a c attr l <> 0 <-> exists u, In u l /\ same_key a c attr u = true).
Proof.
  induction 1 as [|u t Hu _ IH]; cbn [total].
  - split; [lia|]. intros (u & [] & _).
  - destruct Hu as (_ & _ & Hu & _). destruct (same_key a c attr u) eqn:E.
    + split; [|lia]. intros _. exists u. split; [left; reflexivity|exact E].
    + rewrite N.add_0_l, IH. split; intros (x & Hi & Hx).
      * exists x. split; [right; exact Hi|exact Hx].
      * destruct Hi as [<-|Hi]; [congruence|]. eauto.
Qed.

Lemma same_key_spec a c attr u : same_key a c attr u = true <-> u_agent u = Some a /\ u_ctrl u = c /\ u_attr u = attr.
Proof.
  unfold same_key. rewrite !andb_true_iff, !oeqb_eq, N.eqb_eq. tauto.
Qed.

(** Creation of a usage record. *)
Lemma usage_new_ok h a c attr u : usage_new h a c attr = Ok u ->
  u = MkU a c attr 1 /\ attr_ok attr /\ (attr = 0x8 -> a <> None /\ c <> None /\ c <> Some h) /\
  (claims attr -> a <> None).
Proof.
  unfold usage_new, attr_ok, claims, OPEN_BY_CHILD_CONTROLLER, OPEN_BY_DRIVER, BY_DRIVER_EXCLUSIVE, OPEN_EXCLUSIVE,
    OPEN_BY_HANDLE_PROTOCOL, OPEN_GET_PROTOCOL, OPEN_TEST_PROTOCOL.
  change (N.lor OPEN_BY_DRIVER 32) with 48.
  intros H. destruct (attr =? 8) eqn:E1.
  - destruct a as [a|], c as [c|]; try discriminate. destruct (h =? c) eqn:E; [discriminate|].
    injection H as <-. repeat split; try lia; try discriminate. intros X. injection X as ->. lia.
  - destruct ((attr =? 16) || (attr =? 48)) eqn:E2.
    + destruct a as [a|], c as [c|]; cbn [is_none orb] in H; try discriminate. injection H as <-. repeat split; try lia; try discriminate.
    + destruct (attr =? 32) eqn:E3.
      * destruct a as [a|]; cbn [is_none] in H; try discriminate. injection H as <-. repeat split; try lia; try discriminate.
      * destruct ((attr =? 1) || (attr =? 2) || (attr =? 4)) eqn:E4; [|discriminate].
        injection H as <-. repeat split; try lia; try discriminate.
Qed.

Lemma has_bit_drv attr : attr_ok attr -> (has_bit attr OPEN_BY_DRIVER = true <-> attr = 0x10 \/ attr = 0x30).
Proof. unfold attr_ok, OPEN_BY_DRIVER. intros [->|[->|[->|[->|[->|[->| ->]]]]]]; vm_compute; split; try discriminate; try tauto; intros [|]; discriminate. Qed.
Lemma has_bit_exc attr : attr_ok attr -> (has_bit attr OPEN_EXCLUSIVE = true <-> attr = 0x20 \/ attr = 0x30).
Proof. unfold attr_ok, OPEN_EXCLUSIVE. intros [->|[->|[->|[->|[->|[->| ->]]]]]]; vm_compute; split; try discriminate; try tauto; intros [|]; discriminate. Qed.
Lemma has_bit_child attr : attr_ok attr -> (has_bit attr OPEN_BY_CHILD_CONTROLLER = true <-> attr = 0x8).
Proof. unfold attr_ok, OPEN_BY_CHILD_CONTROLLER. intros [->|[->|[->|[->|[->|[->| ->]]]]]]; vm_compute; split; try discriminate; try tauto. Qed.
Lemma is_claim_iff h u : usage_ok h u -> (is_claim u = true <-> claims (u_attr u)).
Proof.
  intros (_ & Ha & _). unfold is_claim, is_drv, is_exc, claims. rewrite orb_true_iff, has_bit_drv, has_bit_exc by exact Ha. tauto.
Qed.

(** The close loop. *)
Lemma remove_last_spec p l :
  match remove_last p l with
  | Some (u, l') => p u = true /\ exists l1 l2, l = l1 ++ u :: l2 /\ l' = l1 ++ l2
  | None => existsb p l = false
  end.
Proof.
  induction l as [|x t IH]; cbn [remove_last]; [reflexivity|].
  destruct (remove_last p t) as [[u t']|].
  - destruct IH as (Hp & l1 & l2 & -> & ->). split; [exact Hp|]. exists (x :: l1), l2. split; reflexivity.
  - cbn [existsb]. destruct (p x) eqn:E.
    + split; [exact E|]. exists [], t. split; reflexivity.
    + exact IH.
Qed.

Lemma existsb_false_filter {A} (p : A -> bool) l : existsb p l = false -> filter (fun x => negb (p x)) l = l.
Proof.
  induction l as [|x t IH]; cbn [existsb filter]; [reflexivity|]. intros H. apply orb_false_iff in H. destruct H as [-> H].
  cbn [negb]. f_equal. auto.
Qed.

Lemma existsb_false_and {A} (p q : A -> bool) l : existsb p l = false -> existsb (fun x => p x && q x) l = false.
Proof.
  induction l as [|x t IH]; cbn [existsb]; [reflexivity|]. intros H. apply orb_false_iff in H. destruct H as [-> H].
  cbn [andb orb]. auto.
Qed.

Lemma close_loop_spec n p it b :
  (length (i_usage it) < n)%nat ->
  let '(it', b') := close_loop n p it b in
  i_iface it' = i_iface it /\
  i_usage it' = filter (fun x => negb (p x)) (i_usage it) /\
  i_drv it' = i_drv it && negb (existsb (fun u => p u && is_drv u) (i_usage it)) /\
  i_exc it' = i_exc it && negb (existsb (fun u => p u && is_exc u) (i_usage it)) /\
  b' = b || existsb p (i_usage it).
Proof.
  revert it b. induction n as [|n IH]; intros it b Hl; [lia|]. cbn [close_loop].
  pose proof (remove_last_spec p (i_usage it)) as Hr.
  destruct (remove_last p (i_usage it)) as [[u l]|].
  - destruct Hr as (Hu & l1 & l2 & E1 & ->). specialize (IH (MkI (i_iface it)
      (if has_bit (u_attr u) OPEN_BY_DRIVER then false else i_drv it)
      (if has_bit (u_attr u) OPEN_EXCLUSIVE then false else i_exc it) (l1 ++ l2)) true).
    destruct (close_loop n p _ true) as [it' b']. cbn [i_usage i_iface i_drv i_exc] in IH.
    rewrite E1 in Hl |- *. rewrite app_length in Hl, IH. cbn [length] in Hl.
    destruct IH as (A & B & C & D & F); [lia|].
    rewrite A, B, C, D, F, !filter_app, !existsb_app. cbn [filter existsb]. rewrite Hu. cbn [negb andb].
    fold (is_drv u). fold (is_exc u).
    repeat split; rewrite ?orb_true_r; auto.
    + destruct (is_drv u), (i_drv it), (existsb (fun u => p u && is_drv u) l1), (existsb (fun u => p u && is_drv u) l2); reflexivity.
    + destruct (is_exc u), (i_exc it), (existsb (fun u => p u && is_exc u) l1), (existsb (fun u => p u && is_exc u) l2); reflexivity.
  - rewrite (existsb_false_filter _ _ Hr), !(existsb_false_and _ _ _ Hr), Hr, !andb_true_r, orb_false_r. auto.
Qed.

Lemma filter_filter {A} (p q : A -> bool) l : filter p (filter q l) = filter (fun x => q x && p x) l.
Proof. induction l as [|x t IH]; cbn [filter]; [reflexivity|]. destruct (q x); cbn [filter andb]; [destruct (p x)|]; rewrite ?IH; reflexivity. Qed.

Lemma filter_len_le {A} (p q : A -> bool) l : (forall x, p x = true -> q x = true) -> (length (filter p l) <= length (filter q l))%nat.
Proof.
  intros H. induction l as [|x t IH]; cbn [filter]; [lia|]. destruct (p x) eqn:E.
  - rewrite (H _ E). cbn [length]. lia.
  - destruct (q x); cbn [length]; lia.
Qed.

Lemma existsb_filter {A} (p q : A -> bool) l : existsb p (filter q l) = existsb (fun x => q x && p x) l.
Proof. induction l as [|x t IH]; cbn [filter existsb]; [reflexivity|]. destruct (q x); cbn [existsb andb orb]; rewrite ?IH; reflexivity. Qed.

Lemma one_claim_excl (p q : usage -> bool) l :
  (forall x, q x = true -> is_claim x = true) -> (length (filter is_claim l) <= 1)%nat ->
  existsb (fun u => p u && q u) l = true -> existsb (fun u => negb (p u) && q u) l = false.
Proof.
  intros Hq. induction l as [|x t IH]; cbn [filter existsb]; [reflexivity|]. intros Hl.
  destruct (q x) eqn:E.
  - rewrite (Hq _ E) in Hl. cbn [length] in Hl.
    assert (Hz : forall f, (forall y, f y = true -> is_claim y = true) -> existsb f t = false).
    { intros f Hf. destruct (existsb f t) eqn:Ex; [|reflexivity]. apply existsb_exists in Ex. destruct Ex as (y & Hy & Fy).
      assert (In y (filter is_claim t)) by (apply filter_In; auto). destruct (filter is_claim t); [contradiction|]. cbn in Hl. lia. }
    rewrite (Hz (fun u => p u && q u)), (Hz (fun u => negb (p u) && q u));
      [| intros y Hy; apply andb_true_iff in Hy; apply Hq, Hy | intros y Hy; apply andb_true_iff in Hy; apply Hq, Hy].
    rewrite !orb_false_r, !andb_true_r. intros ->. reflexivity.
  - rewrite !andb_false_r. cbn [orb]. apply IH. destruct (is_claim x); cbn [length] in Hl; lia.
Qed.

Lemma flag_filter (q : usage -> bool) p l :
  (forall x, q x = true -> is_claim x = true) -> (length (filter is_claim l) <= 1)%nat ->
  existsb q l && negb (existsb (fun u => p u && q u) l) = existsb q (filter (fun x => negb (p x)) l).
Proof.
  intros Hq Hl. rewrite existsb_filter. destruct (existsb (fun u => p u && q u) l) eqn:E.
  - rewrite andb_false_r. symmetry. eapply one_claim_excl; eauto.
  - rewrite andb_true_r. clear Hl. induction l as [|x t IH]; cbn [existsb] in *; [reflexivity|].
    apply orb_false_iff in E. destruct E as [E1 E2]. rewrite (IH E2). destruct (p x); cbn [negb andb] in *; [rewrite E1|]; reflexivity.
Qed.

Lemma close_inst_ok h n p it b :
  (length (i_usage it) < n)%nat -> inst_ok h it -> inst_ok h (fst (close_loop n p it b)).
Proof.
  intros Hn [U D E O]. pose proof (close_loop_spec n p it b Hn) as H.
  destruct (close_loop n p it b) as [it' b']. cbn [fst]. destruct H as (_ & Hu & Hd & He & _).
  split.
  - rewrite Hu. rewrite Forall_forall in *. intros x Hx. apply filter_In in Hx. apply U, Hx.
  - rewrite Hd, Hu, D. apply flag_filter; [|exact O]. intros x Hx. unfold is_claim. rewrite Hx. reflexivity.
  - rewrite He, Hu, E. apply flag_filter; [|exact O]. intros x Hx. unfold is_claim. rewrite Hx. apply orb_true_r.
  - rewrite Hu, filter_filter. etransitivity; [|exact O]. apply filter_len_le. intros x Hx. apply andb_true_iff in Hx. apply Hx.
Qed.

Lemma total_filter a c attr p l :
  total a c attr (filter p l) = if existsb (fun u => same_key a c attr u && negb (p u)) l then
     total a c attr (filter p l) else total a c attr l.
Proof.
  induction l as [|x t IH]; cbn [filter existsb total]; [reflexivity|].
  destruct (p x) eqn:E; cbn [negb total]; rewrite ?andb_false_r, ?andb_true_r; cbn [orb].
  - destruct (existsb _ t); [reflexivity|]. rewrite IH. reflexivity.
  - destruct (same_key a c attr x); cbn [orb]; [reflexivity|].
    destruct (existsb _ t); [reflexivity|]. rewrite IH. reflexivity.
Qed.

(** Bumping the count. *)
Lemma bump_first_map u l (f : usage -> bool) :
  (forall x y, u_agent x = u_agent y -> u_ctrl x = u_ctrl y -> u_attr x = u_attr y -> f x = f y) ->
  existsb f (bump_first u l) = existsb f l /\ length (filter f (bump_first u l)) = length (filter f l).
Proof.
  intros Hf. induction l as [|x t [IH1 IH2]]; cbn [bump_first]; [split; reflexivity|].
  destruct (usage_eqb x u); cbn [existsb filter].
  - rewrite (Hf (MkU (u_agent x) (u_ctrl x) (u_attr x) (u_count x + 1)) x) by reflexivity.
    split; [reflexivity|]. destruct (f x); reflexivity.
  - rewrite IH1. split; [reflexivity|]. destruct (f x); cbn [length]; rewrite IH2; reflexivity.
Qed.

Lemma bump_first_ok h u l : Forall (usage_ok h) l -> Forall (usage_ok h) (bump_first u l).
Proof.
  induction 1 as [|x t Hx Ht IH]; cbn [bump_first]; [constructor|].
  destruct (usage_eqb x u); constructor; auto.
  destruct Hx as (A & B & C & D). unfold usage_ok. cbn. repeat split; auto; try lia; apply D; auto.
Qed.

Lemma bump_first_total u l a c attr :
  existsb (fun x => usage_eqb x u) l = true ->
  total a c attr (bump_first u l) = total a c attr l + (if same_key a c attr u then 1 else 0).
Proof.
  induction l as [|x t IH]; cbn [existsb]; [discriminate|]. intros H. cbn [bump_first].
  destruct (usage_eqb x u) eqn:E; cbn [total].
  - unfold usage_eqb in E. rewrite !andb_true_iff, !oeqb_eq, N.eqb_eq in E. destruct E as [[E1 E2] E3].
    unfold same_key. cbn [u_agent u_ctrl u_attr u_count]. rewrite E1, E2, E3.
    destruct (oeqb (u_agent u) (Some a) && oeqb (u_ctrl u) c && (u_attr u =? attr)); lia.
  - cbn [orb] in H. rewrite (IH H). lia.
Qed.

(** The four ways an open can end. *)
Inductive open_case (d : pdb) (h g : N) (a c : option N) (attr : N) : pout -> pdb -> Prop :=
| oc_err e : (d = d) -> open_case d h g a c attr (OutErr e) d
| oc_unrecorded it : get_inst d h g = Some it -> a = None -> usage_new h a c attr = Ok (MkU a c attr 1) ->
    open_case d h g a c attr OutUnit d
| oc_bump it : get_inst d h g = Some it -> usage_new h a c attr = Ok (MkU a c attr 1) ->
    i_drv it = false -> i_exc it = false ->
    existsb (fun x => usage_eqb x (MkU a c attr 1)) (i_usage it) = true ->
    open_case d h g a c attr OutUnit (upd_inst d h g (fun it => set_usage it (bump_first (MkU a c attr 1) (i_usage it))))
| oc_push it : get_inst d h g = Some it -> usage_new h a c attr = Ok (MkU a c attr 1) -> a <> None ->
    (claims attr -> i_drv it = false /\ i_exc it = false) ->
    open_case d h g a c attr OutUnit (upd_inst d h g (fun it =>
      MkI (i_iface it) (i_drv it || has_bit attr OPEN_BY_DRIVER) (i_exc it || has_bit attr OPEN_EXCLUSIVE)
          (i_usage it ++ [MkU a c attr 1]))).

Lemma open_cases d h g a c attr r d' : open_usage d h g a c attr = (r, d') -> open_case d h g a c attr r d'.
Proof.
  unfold open_usage. intros H.
  destruct (validate d h), (ovalidate d a), (ovalidate d c); try (injection H as <- <-; constructor; reflexivity).
  destruct (get_inst d h g) as [it|] eqn:G; [|injection H as <- <-; constructor; reflexivity].
  assert (Hnp : usage_new h a c attr <> Panic).
  { unfold usage_new. repeat match goal with |- context [if ?b then _ else _] => destruct b | |- context [match ?x with Some _ => _ | None => _ end] => destruct x end; discriminate. }
  destruct (usage_new h a c attr) as [u| |] eqn:U; [|injection H as <- <-; constructor; reflexivity|congruence].
  pose proof (usage_new_ok _ _ _ _ _ U) as (-> & Hok & Hch & Hcl).
  destruct (i_drv it && _) eqn:E1; [injection H as <- <-; constructor; reflexivity|].
  destruct (negb (i_exc it) && _) eqn:E2.
  { injection H as <- <-. apply andb_true_iff in E2. destruct E2 as [E2 E3]. rewrite E3, andb_true_r in E1.
    eapply oc_bump; eauto. destruct (i_exc it); [discriminate|reflexivity]. }
  assert (Hrec : forall it, get_inst d h g = Some it -> (claims attr -> i_drv it = false /\ i_exc it = false) ->
    forall r d', (if is_none a then (OutUnit, d) else (OutUnit, upd_inst d h g (fun it =>
                    MkI (i_iface it) (i_drv it || has_bit attr OPEN_BY_DRIVER)
                        (i_exc it || has_bit attr OPEN_EXCLUSIVE) (i_usage it ++ [MkU a c attr 1])))) = (r, d') ->
    open_case d h g a c attr r d').
  { intros it0 G0 Hc0 r0 d0. destruct a as [a|]; cbn [is_none]; intros X; injection X as <- <-.
    - eapply oc_push; eauto. discriminate.
    - eapply oc_unrecorded; eauto. }
  destruct ((attr =? OPEN_BY_DRIVER) || (attr =? OPEN_EXCLUSIVE) || (attr =? BY_DRIVER_EXCLUSIVE)) eqn:E3.
  - destruct (i_exc it || i_drv it) eqn:E4; [injection H as <- <-; constructor; reflexivity|].
    eapply Hrec; [exact G| |exact H]. intros _. apply orb_false_iff in E4. tauto.
  - destruct ((attr =? OPEN_BY_CHILD_CONTROLLER) || _ || _ || _) eqn:E4.
    + eapply Hrec; [exact G| |exact H]. intros Hc. exfalso.
      unfold claims, OPEN_BY_DRIVER, OPEN_EXCLUSIVE in *. change BY_DRIVER_EXCLUSIVE with 48 in E3. lia.
    + exfalso. unfold attr_ok, OPEN_BY_DRIVER, OPEN_EXCLUSIVE, OPEN_BY_CHILD_CONTROLLER, OPEN_BY_HANDLE_PROTOCOL, OPEN_GET_PROTOCOL, OPEN_TEST_PROTOCOL in *.
      change BY_DRIVER_EXCLUSIVE with 48 in E3. lia.
Qed.

Lemma push_inst_ok h a c attr it :
  usage_new h a c attr = Ok (MkU a c attr 1) -> a <> None ->
  (claims attr -> i_drv it = false /\ i_exc it = false) -> inst_ok h it ->
  inst_ok h (MkI (i_iface it) (i_drv it || has_bit attr OPEN_BY_DRIVER) (i_exc it || has_bit attr OPEN_EXCLUSIVE)
                 (i_usage it ++ [MkU a c attr 1])).
Proof.
  intros Hn Ha Hc [U D E O]. apply usage_new_ok in Hn. destruct Hn as (_ & Hok & Hch & _).
  assert (Hu : usage_ok h (MkU a c attr 1)).
  { unfold usage_ok. cbn. repeat split; auto; try lia; apply Hch; auto. }
  split; cbn [i_usage i_drv i_exc].
  - apply Forall_app. split; [exact U|]. constructor; [exact Hu|constructor].
  - rewrite existsb_app, D. cbn [existsb]. rewrite orb_false_r. reflexivity.
  - rewrite existsb_app, E. cbn [existsb]. rewrite orb_false_r. reflexivity.
  - rewrite filter_app, app_length. cbn [filter]. destruct (is_claim (MkU a c attr 1)) eqn:Ec; [|cbn [length]; lia].
    apply (is_claim_iff _ _ Hu) in Ec. cbn [u_attr] in Ec. destruct (Hc Ec) as [H1 H2]. rewrite D in H1. rewrite E in H2.
    assert (filter is_claim (i_usage it) = []) as ->; [|cbn; lia].
    clear - H1 H2. induction (i_usage it) as [|x t IH]; cbn [filter existsb] in *; [reflexivity|].
    apply orb_false_iff in H1, H2. unfold is_claim. destruct H1 as [-> H1], H2 as [-> H2]. cbn [orb]. auto.
Qed.

Lemma bump_inst_ok h u it : inst_ok h it -> inst_ok h (set_usage it (bump_first u (i_usage it))).
Proof.
  intros [U D E O]. split; cbn [set_usage i_usage i_drv i_exc].
  - apply bump_first_ok. exact U.
  - rewrite D. symmetry. apply bump_first_map. intros x y _ _ H. unfold is_drv. rewrite H. reflexivity.
  - rewrite E. symmetry. apply bump_first_map. intros x y _ _ H. unfold is_exc. rewrite H. reflexivity.
  - destruct (bump_first_map u (i_usage it) is_claim) as [_ ->]; [|exact O].
    intros x y _ _ H. unfold is_claim, is_drv, is_exc. rewrite H. reflexivity.
Qed.

(** What the close of one instance did. *)
Lemma close_cases d h g a c attr r d' :
  close_usage d h g a c attr = (r, d') ->
  (d' = d /\ exists e, r = OutErr e) \/
  (exists it, get_inst d h g = Some it /\
     d' = upd_inst d h g (fun _ => fst (close_loop (S (length (i_usage it))) (close_match a c attr) it false)) /\
     r = (if existsb (close_match a c attr) (i_usage it) then OutUnit else OutErr NotFound)).
Proof.
  unfold close_usage. intros H.
  destruct (validate d h), (ovalidate d a), (ovalidate d c); try (injection H as <- <-; left; eauto; fail).
  destruct (get_inst d h g) as [it|] eqn:G; [|injection H as <- <-; left; eauto].
  right. exists it. split; [reflexivity|].
  pose proof (close_loop_spec (S (length (i_usage it))) (close_match a c attr) it false ltac:(lia)) as Hc.
  destruct (close_loop _ _ it false) as [it' b]. destruct Hc as (_ & _ & _ & _ & ->). injection H as <- <-. auto.
Qed.

Definition use_inv (tr : list pcall) (d : pdb) : Prop :=
  (forall h g it, get_inst d h g = Some it ->
     inst_ok h it /\ forall a c attr, opens tr h g a c attr = total a c attr (i_usage it)) /\
  (forall h g, get_inst d h g = None -> forall a c attr, opens tr h g a c attr = 0).

Lemma use_inv_same tr tr' d d' :
  use_inv tr d -> (forall h g, get_inst d' h g = get_inst d h g) ->
  (forall h g a c attr, opens tr' h g a c attr = opens tr h g a c attr) -> use_inv tr' d'.
Proof.
  intros [A B] Hg Ho. split; intros h g; rewrite Hg; intros.
  - destruct (A _ _ _ H) as [A1 A2]. split; [exact A1|]. intros. rewrite Ho. apply A2.
  - rewrite Ho. apply B. assumption.
Qed.

Lemma total_none a c attr c' attr' n l : total a c attr (l ++ [MkU None c' attr' n]) = total a c attr l.
Proof. rewrite total_app. cbn. lia. Qed.

Lemma match_key_close a c attr a' c' attr' :
  (forall u, same_key a c attr u = true -> close_match a' c' attr' u = 
     (oeqb (Some a) a' && oeqb c c' && match attr' with None => true | Some x => attr =? x end)).
Proof.
  intros u H. apply same_key_spec in H. destruct H as (E1 & E2 & E3). unfold close_match. rewrite E1, E2, E3. reflexivity.
Qed.

Lemma total_close a c attr p l :
  (forall u, same_key a c attr u = true -> p u = true) -> total a c attr (filter (fun x => negb (p x)) l) = 0.
Proof.
  intros H. induction l as [|x t IH]; cbn [filter total]; [reflexivity|].
  destruct (p x) eqn:E; cbn [negb total]; [exact IH|]. destruct (same_key a c attr x) eqn:K; [apply H in K; congruence|]. exact IH.
Qed.
Lemma total_keep a c attr p l :
  (forall u, same_key a c attr u = true -> p u = false) -> total a c attr (filter (fun x => negb (p x)) l) = total a c attr l.
Proof.
  intros H. induction l as [|x t IH]; cbn [filter total]; [reflexivity|].
  destruct (p x) eqn:E; cbn [negb total]; rewrite IH; [|reflexivity].
  destruct (same_key a c attr x) eqn:K; [apply H in K; congruence|]. reflexivity.
Qed.

Lemma hist_use tr d : hist tr d -> use_inv tr d.
Proof.
  induction 1 as [seed fuel|tr d o r d' H IH Hs].
  - split; [cbn; discriminate|reflexivity].
  - pose proof (hist_pinv _ _ H) as Hp.
    destruct o; cbn [pstep] in Hs; try (injection Hs as <- <-; eapply use_inv_same; [exact IH|reflexivity|reflexivity]).
    + destruct (install_effect _ _ _ _ _ _ Hp Hs) as [(key & evs & -> & He)|(-> & [(e & ->)|(-> & ->)])].
      2, 3: eapply use_inv_same; [exact IH|reflexivity|reflexivity].
      destruct IH as [A B]. split; intros h' g'; rewrite (ie_get_inst _ _ _ _ _ _ _ h' g' He); cbn [opens];
        destruct ((h' =? key) && (g' =? g)) eqn:E; auto; try discriminate.
      intros it Hi. injection Hi as <-. split; [|reflexivity].
      split; cbn; auto.
    + destruct (uninstall_effect _ _ _ _ _ _ Hp Hs) as [(-> & He)|(-> & (e & ->))].
      2: eapply use_inv_same; [exact IH|reflexivity|reflexivity].
      destruct IH as [A B]. split; intros h' g'; rewrite (re_get _ _ _ _ _ He); cbn [opens];
        destruct ((h' =? h) && (g' =? g)) eqn:E; auto; try discriminate.
    + apply open_cases in Hs. destruct Hs as [e _|it G -> Hn|it G Hn D E X|it G Hn Ha Hc].
      * eapply use_inv_same; [exact IH|reflexivity|]. intros. cbn [opens]. destruct agent; reflexivity.
      * eapply use_inv_same; [exact IH|reflexivity|reflexivity].
      * destruct IH as [A B]. split; intros h' g'; rewrite upd_get_inst; cbn [opens].
        -- destruct ((h' =? h) && (g' =? g)) eqn:Ek.
           ++ rewrite G. cbn [option_map]. intros it' Hi. injection Hi as <-.
              assert (h' = h) by lia. assert (g' = g) by lia. subst h' g'. destruct (A _ _ _ G) as [A1 A2].
              split; [apply bump_inst_ok; exact A1|]. intros a c at'. cbn [set_usage i_usage].
              rewrite (bump_first_total _ _ _ _ _ X), <- A2. unfold same_key. cbn [u_agent u_ctrl u_attr].
              destruct agent as [ag|].
              ** cbn [andb oeqb]. rewrite (N.eqb_sym ag a), (N.eqb_sym attr at').
                 replace (oeqb ctrl c) with (oeqb c ctrl) by (destruct c, ctrl; cbn; auto using N.eqb_sym).
                 destruct ((a =? ag) && oeqb c ctrl && (at' =? attr)); lia.
              ** cbn. lia.
           ++ intros it' Hi. destruct (A _ _ _ Hi) as [A1 A2]. split; [exact A1|]. intros. rewrite <- A2.
              destruct agent; rewrite ?Ek; cbn [andb]; reflexivity.
        -- destruct ((h' =? h) && (g' =? g)) eqn:Ek; [rewrite G; discriminate|]. intros Hi a c at'.
           destruct agent; rewrite ?Ek; cbn [andb]; apply B; exact Hi.
      * destruct agent as [ag|]; [|congruence].
        destruct IH as [A B]. split; intros h' g'; rewrite upd_get_inst; cbn [opens].
        -- destruct ((h' =? h) && (g' =? g)) eqn:Ek.
           ++ rewrite G. cbn [option_map]. intros it' Hi. injection Hi as <-.
              assert (h' = h) by lia. assert (g' = g) by lia. subst h' g'. destruct (A _ _ _ G) as [A1 A2].
              split; [apply push_inst_ok; auto|]. intros a c at'. cbn [i_usage].
              rewrite total_app, A2. cbn [total same_key u_agent u_ctrl u_attr u_count andb oeqb]. unfold same_key. cbn [u_agent u_ctrl u_attr oeqb].
              rewrite (N.eqb_sym ag a), (N.eqb_sym attr at').
              replace (oeqb ctrl c) with (oeqb c ctrl) by (destruct c, ctrl; cbn; auto using N.eqb_sym).
              destruct ((a =? ag) && oeqb c ctrl && (at' =? attr)); lia.
           ++ intros it' Hi. destruct (A _ _ _ Hi) as [A1 A2]. split; [exact A1|]. intros. rewrite <- A2. cbn [andb]. reflexivity.
        -- destruct ((h' =? h) && (g' =? g)) eqn:Ek; [rewrite G; discriminate|]. intros Hi a c at'. cbn [andb]. apply B; exact Hi.
    + apply close_cases in Hs. destruct Hs as [(-> & e & ->)|(it & G & -> & Hr)].
      * eapply use_inv_same; [exact IH|reflexivity|]. intros. cbn [opens]. destruct agent; reflexivity.
      * destruct IH as [A B]. destruct (A _ _ _ G) as [A1 A2].
        pose proof (close_loop_spec (S (length (i_usage it))) (close_match agent ctrl attr) it false ltac:(lia)) as Hc.
        pose proof (close_inst_ok h (S (length (i_usage it))) (close_match agent ctrl attr) it false ltac:(lia) A1) as Hok.
        destruct (close_loop _ _ it false) as [it' b]. cbn [fst] in *. destruct Hc as (_ & Hu & _).
        assert (Hpast : forall h' g' a c at', (h' =? h) && (g' =? g) = false ->
                  opens ((OClose h g agent ctrl attr, r) :: tr) h' g' a c at' = opens tr h' g' a c at').
        { intros. cbn [opens]. destruct agent; [|reflexivity]. destruct r; try reflexivity. rewrite H0. reflexivity. }
        split; intros h' g'; rewrite upd_get_inst.
        -- destruct ((h' =? h) && (g' =? g)) eqn:Ek.
           ++ rewrite G. cbn [option_map]. intros it0 Hi. injection Hi as <-.
              assert (h' = h) by lia. assert (g' = g) by lia. subst h' g'. split; [exact Hok|].
              intros a c at'. rewrite Hu. cbn [opens]. rewrite !N.eqb_refl. cbn [andb].
              pose proof (match_key_close a c at' agent ctrl attr) as Hm.
              destruct (existsb (close_match agent ctrl attr) (i_usage it)) eqn:Ex; rewrite Hr.
              ** destruct agent as [ag|].
                 --- cbn [oeqb] in Hm. destruct ((a =? ag) && oeqb c ctrl && match attr with None => true | Some x => at' =? x end).
                     +++ symmetry. apply total_close. intros u Hk. rewrite Hm; auto.
                     +++ rewrite A2. symmetry. apply total_keep. intros u Hk. rewrite Hm; auto.
                 --- rewrite A2. symmetry. apply total_keep. intros u Hk. rewrite Hm by exact Hk. reflexivity.
              ** rewrite (existsb_false_filter _ _ Ex), <- A2. destruct agent; reflexivity.
           ++ intros it0 Hi. destruct (A _ _ _ Hi) as [B1 B2]. split; [exact B1|]. intros. rewrite Hpast by exact Ek. apply B2.
        -- destruct ((h' =? h) && (g' =? g)) eqn:Ek; [rewrite G; discriminate|]. intros Hi a c at'. rewrite Hpast by exact Ek. apply B; exact Hi.
    + injection Hs as <- <-. eapply use_inv_same; [exact IH| |reflexivity]. intros. apply get_inst_handles, unregister_same.
    + pose proof (next_handle_same d r0) as (A & _). destruct (next_handle d r0) as [x y]. injection Hs as <- <-. cbn [snd] in A.
      eapply use_inv_same; [exact IH| |reflexivity]. intros. apply get_inst_handles, A.
Qed.
