(** * Device path theorems (C30: the SDK's owned device paths) *)

From Verif Require Import Base.Prelude DevPath.Model DevPath.Sdk DevPath.Spec DevPath.Proofs.
Open Scope N_scope.

(** A node as a program hands it to the builder: its length field agrees with
    its payload. *)
Definition as_built (n : node) : anode :=
  ANode (n_type n) (n_sub n) (N.of_nat (length (n_data n)) + 4) (n_data n).

Lemma as_built_an n : as_built n = an_of n.
Proof. reflexivity. Qed.

Lemma map_as_built ns : map as_built ns = map an_of ns.
Proof. apply map_ext. apply as_built_an. Qed.

Lemma last_snoc_end ns : List.last (ns ++ [end_entire]) end_entire = end_entire.
Proof. apply last_last. Qed.

(** ** Building and reading back *)

(** Building from nodes gives the image of the path, with exactly one
    terminator whether or not the nodes supplied one. *)
Theorem c30_build : forall dbg ns,
  Forall node_ok ns -> unterminated ns ->
  from_device_path_node_iter dbg (map as_built ns) = Ret (path_image ns)
  /\ from_device_path_node_iter dbg (map as_built (ns ++ [end_entire])) = Ret (path_image ns).
Proof.
  intros dbg ns H Hu. rewrite !map_as_built. unfold from_device_path_node_iter. split.
  - rewrite append_all_spec by auto. cbn [obind app].
    assert (E : append dbg (nodes_image ns) EndEntire = Ret (path_image ns)).
    { change EndEntire with (an_of end_entire). rewrite append_node by apply end_ok. reflexivity. }
    destruct ns as [|n ns]; [exact E|].
    set (l := List.last (n :: ns) end_entire).
    assert (Hl : In l (n :: ns)).
    { assert (D : n :: ns <> []) by discriminate.
      pose proof (app_removelast_last end_entire D) as G. fold l in G. rewrite G at 1.
      apply in_app_iff. right. now left. }
    unfold is_end_entire. cbn [a_type a_sub an_of].
    destruct ((n_type l =? 127) && (n_sub l =? 255)) eqn:Ee; [|exact E].
    apply andb_true_iff in Ee. destruct Ee as [E1 E2]. apply N.eqb_eq in E1, E2.
    unfold unterminated in Hu. rewrite Forall_forall in Hu. now elim (Hu l Hl).
  - rewrite append_all_spec by (now apply Forall_ok_end). cbn [obind app]. rewrite path_image_end.
    destruct (ns ++ [end_entire]) as [|x y] eqn:E; [now destruct ns|].
    rewrite <- E, last_snoc_end. reflexivity.
Qed.

(** Reading back yields the nodes, then the terminator. *)
Theorem c30_iter : forall dbg ns,
  Forall node_ok ns -> iter dbg (path_image ns) = Ret (map as_built (ns ++ [end_entire])).
Proof. intros. rewrite map_as_built. now apply iter_path. Qed.

Theorem c30_counts : forall dbg ns,
  Forall node_ok ns -> unterminated ns ->
  size (path_image ns) = N.of_nat (length (path_image ns))
  /\ node_count dbg (path_image ns) = Ret (N.of_nat (length ns) + 1)
  /\ exists b, is_multi_instance dbg (path_image ns) = Ret b
       /\ (b = true <-> exists n, In n ns /\ n_type n = 127 /\ n_sub n = 1).
Proof.
  intros dbg ns H Hu. split; [reflexivity|]. split.
  - unfold node_count. rewrite iter_path by auto. cbn [obind]. rewrite map_length, app_length. cbn. f_equal. lia.
  - unfold is_multi_instance. rewrite iter_path by auto. cbn [obind]. eexists. split; [reflexivity|].
    rewrite existsb_exists. split.
    + intros (a & I & E). apply in_map_iff in I. destruct I as (n & <- & I).
      unfold is_end_instance in E. cbn in E. apply andb_true_iff in E. destruct E as [E1 E2].
      apply N.eqb_eq in E1, E2. apply in_app_iff in I. destruct I as [I|[<-|[]]]; [eauto|]. discriminate.
    + intros (n & I & E1 & E2). exists (an_of n). split.
      * apply in_map, in_app_iff. auto.
      * unfold is_end_instance. cbn. now rewrite E1, E2.
Qed.

(** Equality of paths is equality of their nodes. *)
Theorem c30_eq : forall a b,
  Forall node_ok a -> Forall node_ok b -> (path_eqb (path_image a) (path_image b) = true <-> a = b).
Proof.
  intros a b Ha Hb. unfold path_eqb. rewrite bytes_eqb_eq. split; [|now intros ->].
  rewrite !path_image_end. intros E.
  assert (G : a ++ [end_entire] = b ++ [end_entire]); [|now apply app_inj_tail in G].
  apply Forall_ok_end in Ha, Hb. revert Ha Hb E. generalize (a ++ [end_entire]) (b ++ [end_entire]).
  clear. induction l as [|x l IH]; intros [|y m] Ha Hb E; auto.
  - destruct (image_nonempty y) as (? & ? & G). rewrite nodes_image_cons, G in E. discriminate.
  - destruct (image_nonempty x) as (? & ? & G). rewrite nodes_image_cons, G in E. discriminate.
  - inversion Ha; inversion Hb; subst. rewrite !nodes_image_cons in E.
    assert (G : x = y /\ nodes_image l = nodes_image m) by (eapply image_inj; eauto).
    destruct G as [-> G]. f_equal. auto.
Qed.

(** ** Composition *)

Theorem c30_append_path : forall dbg a b,
  append_device_path dbg (path_image a) (path_image b) = Ret (path_image (a ++ b)).
Proof. intros. unfold append_device_path. rewrite drop_end_path. cbn [obind]. now rewrite path_image_app. Qed.

Theorem c30_append_instances : forall dbg a b,
  append_device_path_instances dbg (path_image a) (path_image b) = Ret (path_image (a ++ [end_instance] ++ b)).
Proof.
  intros. unfold append_device_path_instances. rewrite drop_end_path. cbn [obind].
  change EndInstance with (an_of end_instance). rewrite append_node.
  - cbn [obind]. rewrite !path_image_app. cbn [nodes_image flat_map]. now rewrite app_nil_r, <- app_assoc.
  - unfold node_ok, end_instance; cbn. repeat split; auto; lia.
Qed.

(** Appending one node to a buffer under construction. *)
Theorem c30_append_node : forall dbg buf n, node_ok n ->
  append dbg buf (as_built n) = Ret (buf ++ node_image n).
Proof. intros. rewrite as_built_an. now apply append_node. Qed.

(** [slice_end n] is the path made of the last [n] nodes, terminator counted;
    asking for more nodes than there are panics. *)
Theorem c30_slice_end : forall dbg a b,
  Forall node_ok (a ++ b) ->
  slice_end dbg (path_image (a ++ b)) (N.of_nat (length b) + 1) = Ret (path_image b)
  /\ forall n, N.of_nat (length (a ++ b)) + 1 < n -> slice_end dbg (path_image (a ++ b)) n = Fault.
Proof.
  intros dbg a b H. unfold slice_end.
  assert (E : node_count dbg (path_image (a ++ b)) = Ret (N.of_nat (length (a ++ b)) + 1)).
  { unfold node_count. rewrite iter_path by auto. cbn [obind]. rewrite map_length, (app_length (a ++ b)).
    cbn [length]. f_equal. lia. }
  rewrite E. cbn [obind]. split.
  - replace (N.of_nat (length b) + 1 =? 0) with false by lia. rewrite andb_false_r.
    rewrite app_length. replace (_ <? _) with false by lia.
    replace (N.to_nat (N.of_nat (length a + length b) + 1 - (N.of_nat (length b) + 1))) with (length a) by lia.
    rewrite !path_image_end, <- app_assoc. apply Forall_app in H. now apply skip_nodes_spec.
  - intros n Hn. destruct (dbg && (n =? 0)); auto. replace (_ <? n) with true by lia. reflexivity.
Qed.

(** ** Prefix test *)

Lemma starts_loop_spec ys : forall xs,
  Forall node_ok xs -> Forall node_ok ys -> unterminated xs ->
  (starts_loop (map an_of (xs ++ [end_entire])) (map an_of (ys ++ [end_entire])) = true
   <-> exists t, xs = hd [] (instances ys) ++ t).
Proof.
  induction ys as [|y ys IH]; intros xs Hx Hy Ux.
  - split; [|intros _; destruct xs; reflexivity]. intros _. exists xs. reflexivity.
  - inversion Hy; subst. cbn [app map]. cbn [instances].
    destruct (n_type y =? 127) eqn:Ey.
    { cbn [hd app]. split; [intros _; now exists xs|]. intros _.
      destruct xs; cbn [app map starts_loop an_of a_type]; now rewrite Ey. }
    assert (Hhd : hd [] (match instances ys with [] => [[y]] | i :: r => (y :: i) :: r end)
                  = y :: hd [] (instances ys)).
    { destruct (instances ys); reflexivity. }
    rewrite Hhd. destruct xs as [|x xs].
    + cbn [app map starts_loop an_of a_type]. rewrite Ey.
      destruct (anode_eqb _ _) eqn:E.
      * change (ANode 127 255 _ _) with (an_of end_entire) in E.
        unfold anode_eqb in E. cbn in E. apply N.eqb_neq in Ey.
        rewrite !andb_true_iff in E. destruct E as [[[E _] _] _].
        destruct (n_type y) as [|p]; [discriminate|]. apply Pos.eqb_eq in E. now subst p.
      * split; [discriminate|]. intros [t G]. discriminate.
    + inversion Hx as [|? ? H3 H4]; subst. inversion Ux; subst. cbn [app map starts_loop].
      change (a_type (an_of y)) with (n_type y). rewrite Ey.
      destruct (anode_eqb (an_of x) (an_of y)) eqn:E.
      * apply an_of_eqb in E; auto. subst y. rewrite IH by auto. split; intros [t G].
        -- exists t. cbn [app]. now rewrite <- G.
        -- exists t. cbn [app] in G. now inversion G.
      * split; [discriminate|]. intros [t G]. cbn [app] in G. inversion G; subst.
        assert (anode_eqb (an_of y) (an_of y) = true) by (now apply an_of_eqb). congruence.
Qed.

Lemma instances_one ns : one_instance ns -> instances ns = [ns].
Proof.
  induction 1 as [|n ns Hn H IH]; [reflexivity|]. cbn [instances].
  apply N.eqb_neq in Hn. now rewrite Hn, IH.
Qed.

(** Against a single-instance path, [starts_with] is exactly the prefix
    relation on nodes. *)
Theorem c30_starts_with : forall dbg a b,
  Forall node_ok a -> Forall node_ok b -> unterminated a -> one_instance b ->
  exists r, starts_with dbg (path_image a) (path_image b) = Ret r
    /\ (r = true <-> exists t, prefix_with b a t).
Proof.
  intros dbg a b Ha Hb Ua Ub. unfold starts_with. rewrite !iter_path by auto. cbn [obind].
  eexists. split; [reflexivity|]. rewrite starts_loop_spec by auto. rewrite instances_one by auto. reflexivity.
Qed.

(** In general only the first instance of the other path counts. *)
Theorem c30_starts_with_first_instance : forall dbg a b,
  Forall node_ok a -> Forall node_ok b -> unterminated a ->
  exists r, starts_with dbg (path_image a) (path_image b) = Ret r
    /\ (r = true <-> exists t, prefix_with (hd [] (instances b)) a t).
Proof.
  intros dbg a b Ha Hb Ua. unfold starts_with. rewrite !iter_path by auto. cbn [obind].
  eexists. split; [reflexivity|]. now rewrite starts_loop_spec by auto.
Qed.

Theorem c30_starts_with_multi_refuted : exists a b,
  Forall node_ok a /\ Forall node_ok b /\ unterminated a /\ unterminated b
  /\ starts_with false (path_image a) (path_image b) = Ret true /\ ~ exists t, prefix_with b a t.
Proof.
  exists [Node 1 2 [0]], [Node 1 2 [0]; end_instance; Node 1 2 [1]].
  repeat (apply conj); try (repeat constructor; cbn; unfold is_byte; lia).
  intros [t E]. discriminate.
Qed.

(** ** Instances *)

Lemma next_instance_spec dbg ns : forall cur, Forall node_ok ns ->
  (exists n, In n ns /\ n_type n = 127) ->
  exists i rest, instances ns = i :: instances rest
    /\ (exists e, ns = i ++ e :: rest /\ n_type e = 127)
    /\ next_instance dbg cur (map an_of ns)
       = Ret (Some (match cur with Some b => b | None => [] end ++ path_image i), map an_of rest).
Proof.
  induction ns as [|n ns IH]; intros cur H (m & I & Em); [destruct I|].
  inversion H as [|? ? Hn H']; subst. cbn [instances map next_instance].
  change (a_type (an_of n)) with (n_type n). destruct (n_type n =? 127) eqn:E.
  - exists [], ns. split; [reflexivity|]. split; [exists n; split; auto; now apply N.eqb_eq in E|].
    change EndEntire with (an_of end_entire). rewrite append_node by apply end_ok. reflexivity.
  - assert (Hex : exists m, In m ns /\ n_type m = 127).
    { destruct I as [<-|I]; [|eauto]. apply N.eqb_neq in E. tauto. }
    rewrite append_node by auto. cbn [obind].
    destruct (IH (Some (match cur with Some b => b | None => [] end ++ node_image n)) H' Hex)
      as (i & rest & E1 & (e & E2 & E3) & E4).
    exists (n :: i), rest. rewrite E1. split; [reflexivity|]. split.
    + exists e. split; auto. cbn [app]. now rewrite <- E2.
    + rewrite E4. rewrite path_image_cons, app_assoc. reflexivity.
Qed.

Lemma instances_snoc_end ns : instances (ns ++ [end_entire]) = instances ns ++ [[]].
Proof.
  induction ns as [|n ns IH]; [reflexivity|]. cbn [app instances]. rewrite IH.
  destruct (n_type n =? 127); [reflexivity|].
  destruct (instances ns) eqn:E; [destruct ns as [|m ?]; cbn in E; try discriminate;
    destruct (n_type m =? 127); try discriminate; destruct (instances ns); discriminate|]. reflexivity.
Qed.

Lemma instances_loop_spec dbg k : forall ns fuel, (length ns <= k)%nat -> Forall node_ok ns ->
  (ns = [] \/ n_type (List.last ns end_entire) = 127) -> (length ns < fuel)%nat ->
  instances_loop dbg fuel (map an_of ns) = Ret (map path_image (removelast (instances ns))).
Proof.
  induction k as [|k IH]; intros ns fuel Hk H Hl Hf.
  - destruct ns; [|cbn in Hk; lia]. destruct fuel; [cbn in Hf; lia|]. reflexivity.
  - destruct fuel as [|fuel]; [lia|]. destruct ns as [|n ns]; [reflexivity|].
    assert (Hex : exists m, In m (n :: ns) /\ n_type m = 127).
    { destruct Hl as [E|Hl]; [discriminate|]. exists (List.last (n :: ns) end_entire). split; auto.
      assert (D : n :: ns <> []) by discriminate.
      pose proof (app_removelast_last end_entire D) as G. rewrite G at 2. apply in_app_iff. right. now left. }
    destruct (next_instance_spec dbg (n :: ns) None H Hex) as (i & rest & E1 & (e & E2 & E3) & E4).
    cbn [instances_loop]. rewrite E4. cbn [obind app]. rewrite E2 in *.
    rewrite app_length in Hk, Hf. cbn [length] in Hk, Hf.
    rewrite IH; auto; try lia.
    + cbn [obind]. rewrite E1. cbn [removelast]. destruct (instances rest) eqn:Er; [|reflexivity].
      destruct rest as [|r rest]; [discriminate|]. cbn in Er. destruct (n_type r =? 127); [discriminate|].
      destruct (instances rest); discriminate.
    + apply Forall_app in H. destruct H as [_ H]. now inversion H.
    + destruct rest as [|r rest]; [auto|]. right. destruct Hl as [Hl|Hl]; [now destruct i|].
      assert (G : List.last (i ++ e :: r :: rest) end_entire = List.last (r :: rest) end_entire).
      { clear. induction i as [|x i IHi]; [reflexivity|]. rewrite <- IHi. cbn [app].
        destruct i; reflexivity. }
      now rewrite G in Hl.
Qed.

(** [iter_instances] yields one terminated path per instance, in order. *)
Theorem c30_iter_instances : forall dbg ns,
  Forall node_ok ns ->
  iter_instances dbg (path_image ns) = Ret (map path_image (instances ns)).
Proof.
  intros dbg ns H. unfold iter_instances. rewrite iter_path by auto. cbn [obind].
  rewrite map_length. erewrite instances_loop_spec; [| |now apply Forall_ok_end| |].
  - rewrite instances_snoc_end, removelast_last. reflexivity.
  - reflexivity.
  - right. now rewrite last_last.
  - lia.
Qed.

(** Joining instances is undone by [iter_instances]. *)
Theorem c30_instances_round_trip : forall dbg a b,
  Forall node_ok a -> Forall node_ok b -> one_instance a -> one_instance b ->
  obind (append_device_path_instances dbg (path_image a) (path_image b)) (iter_instances dbg)
  = Ret [path_image a; path_image b].
Proof.
  intros dbg a b Ha Hb Oa Ob. rewrite c30_append_instances. cbn [obind].
  rewrite c30_iter_instances.
  - assert (E : instances (a ++ end_instance :: b) = [a; b]); [|cbn [app]; now rewrite E].
    induction Oa as [|n a Hn Oa IH].
    + cbn. now rewrite instances_one.
    + inversion Ha; subst. cbn [app instances]. apply N.eqb_neq in Hn. rewrite Hn. now rewrite IH.
  - apply Forall_app; split; auto. cbn [app]. constructor; auto.
    unfold node_ok, end_instance; cbn. repeat split; auto; lia.
Qed.

(** ** From a raw pointer *)

Lemma try_from_ptr_loop_spec ns : forall done rest fuel,
  Forall node_ok ns -> unterminated ns -> (length ns < fuel)%nat ->
  try_from_ptr_loop fuel (done ++ path_image ns ++ rest) (N.of_nat (length done) + 4) (N.of_nat (length done))
  = Ret (done ++ path_image ns).
Proof.
  induction ns as [|n ns IH]; intros done rest fuel H Hu Hf; (destruct fuel as [|fuel]; [cbn in Hf; lia|]).
  - unfold path_image. cbn [nodes_image flat_map app try_from_ptr_loop].
    replace (done ++ 127 :: 255 :: 4 :: 0 :: rest) with ((done ++ [127;255;4;0]) ++ rest)
      by (rewrite <- app_assoc; reflexivity).
    replace (N.of_nat (length done) + 4) with (N.of_nat (length (done ++ [127;255;4;0])))
      by (rewrite app_length; cbn [length]; lia).
    rewrite raw_parts_app. cbn [obind]. rewrite Nat2N.id, skipn_len_app. reflexivity.
  - inversion H as [|? ? Hn H']; subst. inversion Hu as [|? ? Hn1 Hu']; subst. cbn [length] in Hf.
    rewrite path_image_cons. cbn [try_from_ptr_loop].
    set (h4 := firstn 4 (node_image n)). set (d := skipn 4 (node_image n)).
    assert (Ei : node_image n = h4 ++ d) by (symmetry; apply firstn_skipn).
    assert (L4 : length h4 = 4%nat) by reflexivity.
    replace (done ++ (node_image n ++ path_image ns) ++ rest)
      with ((done ++ h4) ++ (d ++ path_image ns ++ rest)) by (rewrite Ei, <- !app_assoc; reflexivity).
    replace (N.of_nat (length done) + 4) with (N.of_nat (length (done ++ h4))) at 1
      by (rewrite app_length, L4; lia).
    rewrite raw_parts_app. cbn [obind]. rewrite Nat2N.id, skipn_len_app.
    assert (Eh : read_hdr h4 = Some (Hdr (n_type n) (n_sub n) (nlen n))).
    { rewrite <- (read_hdr_image n [] Hn), app_nil_r. reflexivity. }
    rewrite Eh. cbn [h_type h_sub h_len]. unfold is_end_entire.
    destruct ((n_type n =? 127) && (n_sub n =? 255)) eqn:E.
    { apply andb_true_iff in E. destruct E as [E1 E2]. apply N.eqb_eq in E1, E2. tauto. }
    replace ((done ++ h4) ++ d ++ path_image ns ++ rest) with ((done ++ node_image n) ++ path_image ns ++ rest)
      by (rewrite Ei, <- !app_assoc; reflexivity).
    replace (N.of_nat (length done) + 4 + nlen n) with (N.of_nat (length (done ++ node_image n)) + 4)
      by (rewrite !app_length, <- image_length; lia).
    replace (N.of_nat (length done) + nlen n) with (N.of_nat (length (done ++ node_image n)))
      by (rewrite app_length, <- image_length; lia).
    rewrite IH by (auto; lia). now rewrite <- app_assoc.
Qed.

(** A pointer to a terminated path, with anything after it, becomes exactly
    that path: all its instances and nothing else. *)
Theorem c30_try_from_ptr : forall ns rest,
  Forall node_ok ns -> unterminated ns ->
  try_from_ptr (Some (path_image ns ++ rest)) = Ret (path_image ns).
Proof.
  intros ns rest H Hu. unfold try_from_ptr.
  pose proof (try_from_ptr_loop_spec ns [] rest (S (length (path_image ns ++ rest))) H Hu) as G.
  cbn [app length N.of_nat N.add] in G. apply G.
  rewrite app_length. pose proof (nodes_len ns). unfold path_image. rewrite app_length. lia.
Qed.

Theorem c30_null : try_from_ptr None = Fail OtherError.
Proof. reflexivity. Qed.

(** ** The 16-bit length *)

(** A node too long for its length field is written with a truncated one:
    what is read back is not what was built. *)
Theorem c30_long_node_lost : forall n buf l,
  65536 <= N.of_nat (length (n_data n)) + 4 ->
  from_device_path_node_iter false [as_built n] = Ret buf ->
  iter false buf = Ret l -> l <> map as_built [n; end_entire].
Proof.
  intros n buf l Hlen Eb El E. subst l. rename Eb into Hb, El into Hi.
  assert (Hbuf : exists tl, buf = hdr_bytes (as_built n) ++ tl).
  { unfold from_device_path_node_iter in Hb. cbn [append_all] in Hb.
    assert (Ea : exists t1, append false [] (as_built n) = Ret (hdr_bytes (as_built n) ++ t1)).
    { unfold append, write_into. destruct (a_len (as_built n) <? 4) eqn:E4; [cbn in E4; lia|].
      destruct (a_len (as_built n) - 4 <? N.of_nat (length (a_body (as_built n)))); cbn [andb app].
      - unfold overlay. eexists. reflexivity.
      - unfold overlay. rewrite <- (app_assoc (hdr_bytes _)). eexists. reflexivity. }
    destruct Ea as [t1 Ea]. rewrite Ea in Hb. cbn [obind] in Hb.
    destruct (is_end_entire _ _).
    - inversion Hb; subst. now exists t1.
    - change EndEntire with (an_of end_entire) in Hb. rewrite append_node in Hb by apply end_ok.
      assert (Eb : buf = (hdr_bytes (as_built n) ++ t1) ++ node_image end_entire) by congruence.
      rewrite Eb, <- (app_assoc (hdr_bytes (as_built n))). eauto. }
  destruct Hbuf as [tl ->]. unfold iter in Hi. cbn [iter_collect] in Hi.
  unfold hdr_bytes in Hi at 1. cbn [app iter_next] in Hi.
  set (x := a_len (as_built n) mod 65536) in *.
  assert (Hx : x < 65536) by (apply N.mod_lt; lia).
  cbn [a_type a_sub as_built] in Hi. unfold read_unknown in Hi. cbn [read_hdr h_len h_type h_sub] in Hi.
  rewrite (N.add_comm (x mod 256)), <- N.div_mod' in Hi.
  destruct (N.of_nat _ <? x); [discriminate|]. destruct (x <? 4); [discriminate|].
  cbn [obind] in Hi. destruct (iter_collect _ _ _); cbn [obind map] in Hi; try discriminate.
  inversion Hi as [[E1 E2 E3]]. cbn [as_built a_len] in *. lia.
Qed.

(** ** Typed nodes *)

(** Field values that fit their declared types. *)
Definition typed_ok (t : typed) : Prop :=
  match t with
  | Pci f d => f < 256 /\ d < 256
  | PcCard f => f < 256
  | MemoryMapped m s e => m < 2 ^ 32 /\ s < 2 ^ 64 /\ e < 2 ^ 64
  | Controller n => n < 2 ^ 32
  | Bmc i b => i < 256 /\ b < 2 ^ 64
  | Acpi h u => h < 2 ^ 32 /\ u < 2 ^ 32
  end.

(** The node lengths UEFI 2.10 section 10.3 prescribes. *)
Definition uefi_length (t : typed) : N :=
  match t with
  | Pci _ _ => 6 | PcCard _ => 5 | MemoryMapped _ _ _ => 24
  | Controller _ => 8 | Bmc _ _ => 13 | Acpi _ _ => 12
  end.

Lemma le_length w : forall v, length (le w v) = w.
Proof. induction w; intros; cbn [le length]; auto. Qed.

Lemma of_le_le w : forall v, v < 256 ^ N.of_nat w -> of_le (le w v) = v.
Proof.
  induction w as [|w IH]; intros v H.
  - cbn in *. lia.
  - cbn [le of_le]. rewrite IH.
    + rewrite (N.add_comm (v mod 256)). symmetry. apply N.div_mod'.
    + apply N.div_lt_upper_bound; [lia|]. rewrite Nat2N.inj_succ, N.pow_succ_r' in H. exact H.
Qed.

Lemma le_bytes w : forall v, Forall is_byte (le w v).
Proof.
  induction w; intros; cbn [le]; constructor; auto. unfold is_byte. apply N.mod_lt. lia.
Qed.

Lemma field_le a w v d : v < 256 ^ N.of_nat w -> field (a ++ le w v ++ d) (length a) w = v.
Proof.
  intros H. unfold field. rewrite skipn_len_app.
  rewrite <- (le_length w v) at 1. rewrite firstn_len_app. now apply of_le_le.
Qed.

Lemma field_le0 w v d : v < 256 ^ N.of_nat w -> field (le w v ++ d) 0 w = v.
Proof. apply (field_le [] w v d). Qed.

Definition packed (t : typed) : bool :=
  match t with MemoryMapped _ _ _ | Bmc _ _ => false | _ => true end.

(** The nodes without internal padding are written as the specification lays
    them out and are read back as themselves. *)
Theorem c30_typed_packed : forall dbg t,
  typed_ok t -> packed t = true ->
  a_len (typed_anode t) = uefi_length t
  /\ exists n, node_ok n /\ typed_anode t = as_built n
     /\ from_device_path_node_iter dbg [typed_anode t] = Ret (path_image [n])
     /\ cast dbg (as_built n) = Ret (Some t).
Proof.
  intros dbg t Ht Hp. split; [destruct t; try discriminate; reflexivity|].
  exists (Node (a_type (typed_anode t)) (a_sub (typed_anode t)) (typed_body t)).
  assert (Hok : node_ok (Node (a_type (typed_anode t)) (a_sub (typed_anode t)) (typed_body t))).
  { unfold node_ok. cbn [n_type n_sub n_data].
    destruct t; try discriminate; cbn [typed_anode typed_body a_type a_sub];
      rewrite ?app_length, ?le_length; (repeat (apply conj)); try lia; rewrite ?Forall_app; auto using le_bytes. }
  assert (Ha : typed_anode t = as_built (Node (a_type (typed_anode t)) (a_sub (typed_anode t)) (typed_body t))).
  { destruct t; try discriminate; reflexivity. }
  split; [exact Hok|]. split; [exact Ha|]. split.
  - rewrite Ha at 1. apply (c30_build dbg [_]).
    + constructor; auto.
    + constructor; auto. cbn. destruct t; try discriminate; cbn; lia.
  - destruct t; try discriminate; cbn [typed_ok] in Ht;
      unfold as_built, cast; cbn [n_type n_sub n_data typed_anode typed_body a_type a_sub a_body N.eqb Pos.eqb andb];
      rewrite ?app_length, ?le_length; cbn [Nat.add Nat.ltb Nat.leb].
    + rewrite (field_le0 1 function) by (cbn; lia).
      pose proof (field_le (le 1 function) 1 device []) as E. rewrite app_nil_r, le_length in E.
      rewrite E by (cbn; lia). reflexivity.
    + pose proof (field_le [] 1 function_number []) as E. rewrite app_nil_r in E. cbn [app length] in E.
      rewrite E by (cbn; lia). reflexivity.
    + pose proof (field_le [] 4 number []) as E. rewrite app_nil_r in E. cbn [app length] in E.
      rewrite E by (cbn; lia). reflexivity.
    + rewrite (field_le0 4 hid) by (cbn; lia).
      pose proof (field_le (le 4 hid) 4 uid []) as E. rewrite app_nil_r, le_length in E.
      rewrite E by (cbn; lia). reflexivity.
Qed.

(** The two nodes with padding report their in-memory size: four (seven)
    bytes more than the specification, and a debug build panics on them. *)
Theorem c30_typed_padded : forall t,
  packed t = false ->
  uefi_length t < a_len (typed_anode t)
  /\ from_device_path_node_iter true [typed_anode t] = Fault
  /\ exists buf, from_device_path_node_iter false [typed_anode t] = Ret buf
     /\ N.of_nat (length buf) = a_len (typed_anode t) + 4.
Proof.
  intros t Hp. destruct t; try discriminate.
  - split; [cbn; lia|]. split; [reflexivity|].
    eexists. split; reflexivity.
  - split; [cbn; lia|]. split; [reflexivity|].
    eexists. split; reflexivity.
Qed.

(** Hence a memory-mapped node built here differs from the same node built by
    any conforming producer. *)
Theorem c30_typed_interop_refuted : exists t n buf,
  typed_ok t /\ node_ok n /\ n_type n = 1 /\ n_sub n = 3 /\ n_data n = typed_body t
  /\ N.of_nat (length (node_image n)) = uefi_length t
  /\ from_device_path_node_iter false [typed_anode t] = Ret buf
  /\ starts_with false buf (path_image [n]) = Ret false
  /\ path_eqb buf (path_image [n]) = false.
Proof.
  exists (MemoryMapped 11 4096 8191). exists (Node 1 3 (typed_body (MemoryMapped 11 4096 8191))).
  eexists. repeat (apply conj).
  - cbn. lia.
  - cbn. lia.
  - cbn. lia.
  - cbn. lia.
  - cbn. lia.
  - cbn [n_data typed_body]. rewrite !Forall_app. auto using le_bytes.
  - vm_compute. reflexivity.
  - reflexivity.
  - reflexivity.
  - reflexivity.
  - vm_compute. reflexivity.
  - vm_compute. reflexivity.
  - vm_compute. reflexivity.
  - vm_compute. reflexivity.
Qed.

(** In a release build the padded nodes are still read back as themselves. *)
Theorem c30_typed_release_round_trip : forall t,
  typed_ok t ->
  exists buf n l, from_device_path_node_iter false [typed_anode t] = Ret buf
    /\ iter false buf = Ret (n :: l) /\ cast false n = Ret (Some t).
Proof.
  intros t Ht. destruct (packed t) eqn:Hp.
  - destruct (c30_typed_packed false t Ht Hp) as (_ & n & Hn & _ & E2 & E3).
    exists (path_image [n]), (as_built n), [as_built end_entire]. split; [exact E2|]. split; [|exact E3].
    apply (c30_iter false [n]). constructor; auto.
  - destruct t as [| |m s e| |i b|]; try discriminate; destruct Ht as [H1 H2].
    + exists (path_image [Node 1 3 (typed_body (MemoryMapped m s e) ++ [0;0;0;0])]),
             (as_built (Node 1 3 (typed_body (MemoryMapped m s e) ++ [0;0;0;0]))), [as_built end_entire].
      split; [reflexivity|]. split.
      * apply (c30_iter false [_]). constructor; auto. unfold node_ok. cbn [n_type n_sub n_data typed_body].
        repeat (apply conj); try lia.
        -- rewrite !Forall_app. repeat (apply conj); auto using le_bytes. repeat constructor; unfold is_byte; lia.
        -- rewrite !app_length, !le_length. cbn. lia.
      * destruct H2 as [H2 H3]. unfold as_built, cast.
        cbn [n_type n_sub n_data typed_body a_type a_sub a_body N.eqb Pos.eqb andb].
        rewrite !app_length, !le_length. cbn [Nat.add Nat.ltb Nat.leb length].
        rewrite <- !app_assoc. rewrite (field_le0 4 m) by (cbn; lia).
        pose proof (field_le (le 4 m) 8 s (le 8 e ++ [0;0;0;0])) as E1. rewrite le_length in E1.
        rewrite E1 by (cbn; lia).
        pose proof (field_le (le 4 m ++ le 8 s) 8 e [0;0;0;0]) as E2.
        rewrite app_length, !le_length, <- app_assoc in E2. cbn [Nat.add] in E2.
        rewrite E2 by (cbn; lia). reflexivity.
    + exists (path_image [Node 1 6 (typed_body (Bmc i b) ++ [0;0;0;0;0;0;0])]),
             (as_built (Node 1 6 (typed_body (Bmc i b) ++ [0;0;0;0;0;0;0]))), [as_built end_entire].
      split; [reflexivity|]. split.
      * apply (c30_iter false [_]). constructor; auto. unfold node_ok. cbn [n_type n_sub n_data typed_body].
        repeat (apply conj); try lia.
        -- rewrite !Forall_app. repeat (apply conj); auto using le_bytes. repeat constructor; unfold is_byte; lia.
        -- rewrite !app_length, !le_length. cbn. lia.
      * unfold as_built, cast.
        cbn [n_type n_sub n_data typed_body a_type a_sub a_body N.eqb Pos.eqb andb].
        rewrite !app_length, !le_length. cbn [Nat.add Nat.ltb Nat.leb length].
        rewrite <- !app_assoc. rewrite (field_le0 1 i) by (cbn; lia).
        pose proof (field_le (le 1 i) 8 b [0;0;0;0;0;0;0]) as E1. rewrite le_length in E1.
        rewrite E1 by (cbn; lia). reflexivity.
Qed.

(** A BIOS boot node: the debug build panics unless the description has
    exactly 24 bytes, and a release build loses a longer one. *)
Theorem c30_bios_debug : forall dt sf str,
  length str <> 24%nat -> from_device_path_node_iter true [bios_anode dt sf str] = Fault.
Proof.
  intros dt sf str H. unfold from_device_path_node_iter. cbn [append_all].
  assert (E : append true [] (bios_anode dt sf str) = Fault); [|now rewrite E].
  unfold append, write_into, bios_anode. cbn [a_len a_body].
  rewrite !app_length, !le_length. cbn [length Nat.add].
  change (4 + 32 <? 4) with false. cbn iota.
  destruct (4 + 32 - 4 <? _) eqn:E; [reflexivity|]. cbn [andb].
  replace (4 + 32 =? _) with false by lia. reflexivity.
Qed.

Theorem c30_bios_release_refuted : exists str str' buf,
  str <> str' /\ from_device_path_node_iter false [bios_anode 1 0 str] = Ret buf
  /\ from_device_path_node_iter false [bios_anode 1 0 str'] = Ret buf.
Proof.
  exists (repeat 65 25), (repeat 66 25). eexists. split; [discriminate|].
  split; vm_compute; reflexivity.
Qed.

(** ** EISA identifiers *)

(** Three letters and four hexadecimal digits. *)
Definition letter (c : N) : Prop := 65 <= c <= 90.

(** UEFI 2.10, 10.6: "0x41D0 represents the compressed string 'PNP' and is in
    the low-order bytes". *)
Definition uefi_eisa (c1 c2 c3 num : N) : N := (c1 * 1024 + c2 * 32 + c3) + 65536 * num.

Lemma bits_lor_add a b k : b < 2 ^ k -> N.lor (a * 2 ^ k) b = a * 2 ^ k + b.
Proof.
  intros H. rewrite <- N.shiftl_mul_pow2. rewrite N.lor_comm.
  rewrite <- N.lxor_lor.
  - rewrite <- N.add_nocarry_lxor.
    + lia.
    + apply N.bits_inj. intros i. rewrite N.land_spec, N.bits_0.
      destruct (i <? k) eqn:E.
      * apply N.ltb_lt in E. rewrite N.shiftl_spec_low by auto. apply andb_false_r.
      * apply N.ltb_ge in E. rewrite <- (N.mod_small b (2 ^ k)) by auto.
        rewrite N.mod_pow2_bits_high by auto. reflexivity.
  - apply N.bits_inj. intros i. rewrite N.land_spec, N.bits_0.
    destruct (i <? k) eqn:E.
    + apply N.ltb_lt in E. rewrite N.shiftl_spec_low by auto. apply andb_false_r.
    + apply N.ltb_ge in E. rewrite <- (N.mod_small b (2 ^ k)) by auto.
      rewrite N.mod_pow2_bits_high by auto. reflexivity.
Qed.

Lemma hex_digit_range c h : hex_digit c = Some h -> h < 16.
Proof.
  unfold hex_digit.
  destruct ((48 <=? c) && (c <=? 57)) eqn:E1; [intros E; inversion E; lia|].
  destruct ((97 <=? c) && (c <=? 102)) eqn:E2; [intros E; inversion E; lia|].
  destruct ((65 <=? c) && (c <=? 70)) eqn:E3; [intros E; inversion E; lia|discriminate].
Qed.

(** What the code computes: the compressed name is in the high-order half. *)
Theorem c30_eisa_value : forall b0 b1 b2 b3 b4 b5 b6 h1 h2 h3 h4,
  letter b0 -> letter b1 -> letter b2 ->
  hex_digit b3 = Some h1 -> hex_digit b4 = Some h2 -> hex_digit b5 = Some h3 -> hex_digit b6 = Some h4 ->
  eisa_id [b0;b1;b2;b3;b4;b5;b6]
  = Some (((b0 - 64) * 1024 + (b1 - 64) * 32 + (b2 - 64)) * 65536
          + (h1 * 4096 + h2 * 256 + h3 * 16 + h4)).
Proof.
  unfold letter. intros b0 b1 b2 b3 b4 b5 b6 h1 h2 h3 h4 L0 L1 L2 E1 E2 E3 E4.
  pose proof (hex_digit_range _ _ E1). pose proof (hex_digit_range _ _ E2).
  pose proof (hex_digit_range _ _ E3). pose proof (hex_digit_range _ _ E4).
  unfold eisa_id. replace ((b0 <? 64) || (b1 <? 64) || (b2 <? 64)) with false by lia.
  rewrite E1, E2, E3, E4. f_equal.
  assert (L31 : forall x, 65 <= x <= 90 -> N.land (x - 64) 31 = x - 64).
  { intros x Hx. change 31 with (N.ones 5). rewrite N.land_ones. apply N.mod_small. cbn. lia. }
  rewrite !L31 by auto.
  set (c1 := b0 - 64) in *. set (c2 := b1 - 64) in *. set (c3 := b2 - 64) in *.
  assert (c1 <= 26) by lia. assert (c2 <= 26) by lia. assert (c3 <= 26) by lia.
  clearbody c1 c2 c3.
  rewrite !N.shiftl_mul_pow2, N.shiftr_div_pow2.
  change 255 with (N.ones 8). rewrite N.land_ones.
  assert (M : c2 * 2 ^ 5 mod 2 ^ 8 = (c2 mod 8) * 2 ^ 5).
  { change (2 ^ 8) with (8 * 2 ^ 5). rewrite N.mul_mod_distr_r by (cbn; lia). reflexivity. }
  rewrite M.
  rewrite (bits_lor_add c1 (c2 / 2 ^ 3) 2) by (change (2 ^ 3) with 8; change (2 ^ 2) with 4; lia).
  rewrite (bits_lor_add (c2 mod 8) c3 5) by (change (2 ^ 5) with 32; lia).
  rewrite (bits_lor_add h1 h2 4) by (cbn; lia). rewrite (bits_lor_add h3 h4 4) by (cbn; lia).
  cbn [of_le].
  change (2 ^ 2) with 4; change (2 ^ 3) with 8; change (2 ^ 5) with 32; change (2 ^ 4) with 16.
  pose proof (N.div_mod' c2 8). lia.
Qed.

(** Hence the root-bridge identifier is not the one UEFI prescribes. *)
Theorem c30_pci_root_hid_refuted :
  eisa_id [80;78;80;48;65;48;51] = Some 1104153091          (* 0x41D00A03 *)
  /\ uefi_eisa 16 14 16 2563 = 167985616                    (* 0x0A0341D0 *)
  /\ eisa_id [80;78;80;48;65;48;51] <> Some (uefi_eisa 16 14 16 2563).
Proof. repeat (apply conj); vm_compute; try reflexivity. discriminate. Qed.

(** ** Concrete cases *)
Example ex_build_two : exists a b,
  Forall node_ok [a; b] /\ unterminated [a; b] /\
  from_device_path_node_iter true (map as_built [a; b])
  = Ret [2;1;12;0;3;10;208;65;0;0;0;0; 1;1;6;0;0;28; 127;255;4;0].
Proof.
  exists (Node 2 1 [3;10;208;65;0;0;0;0]), (Node 1 1 [0;28]).
  repeat (apply conj); try (repeat constructor; cbn; unfold is_byte; lia).
Qed.

Example ex_instances : instances [Node 1 2 [0]; end_instance; Node 1 2 [1]] = [[Node 1 2 [0]]; [Node 1 2 [1]]].
Proof. reflexivity. Qed.

Example ex_typed_ok : typed_ok (Acpi 1104153091 7) /\ packed (Acpi 1104153091 7) = true
  /\ typed_ok (Bmc 1 4096) /\ packed (Bmc 1 4096) = false.
Proof. cbn. repeat split; lia. Qed.

Print Assumptions c30_build.
Print Assumptions c30_iter.
Print Assumptions c30_counts.
Print Assumptions c30_eq.
Print Assumptions c30_append_path.
Print Assumptions c30_append_instances.
Print Assumptions c30_append_node.
Print Assumptions c30_slice_end.
Print Assumptions c30_starts_with.
Print Assumptions c30_starts_with_first_instance.
Print Assumptions c30_starts_with_multi_refuted.
Print Assumptions c30_iter_instances.
Print Assumptions c30_instances_round_trip.
Print Assumptions c30_try_from_ptr.
Print Assumptions c30_null.
Print Assumptions c30_long_node_lost.
Print Assumptions c30_typed_packed.
Print Assumptions c30_typed_padded.
Print Assumptions c30_typed_interop_refuted.
Print Assumptions c30_typed_release_round_trip.
Print Assumptions c30_bios_debug.
Print Assumptions c30_bios_release_refuted.
Print Assumptions c30_eisa_value.
Print Assumptions c30_pci_root_hid_refuted.
