(** * Device path theorems (C29: the raw-pointer utilities) *)

From Verif Require Import Base.Prelude DevPath.Model DevPath.Spec DevPath.Proofs.
Open Scope N_scope.

(** ** Counting, slicing, copying *)

(** A single-instance path: the node count includes the terminator and the
    size is that of the whole image, whatever bytes follow it. *)
Theorem c29_node_count : forall dbg ns rest,
  Forall node_ok ns -> one_instance ns ->
  device_path_node_count dbg (Some (path_image ns ++ rest))
  = Ret (N.of_nat (length ns) + 1, N.of_nat (length (path_image ns))).
Proof.
  intros. rewrite path_image_end. apply node_count_first_end; auto using end_ok.
Qed.

Theorem c29_copy : forall dbg ns rest,
  Forall node_ok ns -> one_instance ns ->
  copy_device_path_to_boxed_slice dbg (Some (path_image ns ++ rest)) = Ret (path_image ns)
  /\ device_path_as_slice dbg (Some (path_image ns ++ rest)) = Ret (path_image ns).
Proof. intros. split; apply as_slice_path; auto. Qed.

(** What happens on a path of several instances: everything after the first
    end node, of either kind, is left out, and the copy ends with that node. *)
Theorem c29_copy_stops_at_first_end : forall dbg pre e rest,
  Forall node_ok pre -> one_instance pre -> node_ok e -> n_type e = 127 ->
  copy_device_path_to_boxed_slice dbg (Some (nodes_image pre ++ node_image e ++ rest))
  = Ret (nodes_image pre ++ node_image e)
  /\ device_path_node_count dbg (Some (nodes_image pre ++ node_image e ++ rest))
     = Ret (N.of_nat (length pre) + 1, N.of_nat (length (nodes_image pre ++ node_image e))).
Proof.
  intros dbg pre e rest Hp Ho He Ht.
  assert (E : nodes_image pre ++ node_image e = nodes_image (pre ++ [e])).
  { rewrite nodes_image_app. cbn [nodes_image flat_map]. now rewrite app_nil_r. }
  rewrite app_assoc, E. split.
  - apply as_slice_first_end; auto.
  - apply node_count_first_end; auto.
Qed.

(** Hence "the copy is the device path" is false for several instances. *)
Theorem c29_copy_multi_instance_refuted : exists dbg ns,
  Forall node_ok ns /\ unterminated ns
  /\ exists got, copy_device_path_to_boxed_slice dbg (Some (path_image ns)) = Ret got
     /\ got <> path_image ns
     /\ forall ms, got <> path_image ms.
Proof.
  exists false, [Node 1 1 [0;0]; end_instance; Node 1 1 [1;0]].
  split; [|split].
  - repeat constructor; cbn; unfold is_byte; lia.
  - repeat constructor; cbn; lia.
  - exists [1;1;6;0;0;0;127;1;4;0]. split; [vm_compute; reflexivity|]. split; [vm_compute; discriminate|].
    intros ms E.
    assert (A : exists p, [1;1;6;0;0;0;127;1;4;0] = p ++ [127;255;4;0]) by (unfold path_image in E; eauto).
    destruct A as [p A].
    assert (F : rev [1;1;6;0;0;0;127;1;4;0] = rev (p ++ [127;255;4;0])) by now rewrite A.
    rewrite rev_app_distr in F. cbn in F. discriminate.
Qed.

(** Concatenation: the nodes of [a], then those of [b], one terminator. *)
Theorem c29_concat : forall dbg a b ra rb,
  Forall node_ok a -> Forall node_ok b -> one_instance a -> one_instance b ->
  concat_device_path_to_boxed_slice dbg (Some (path_image a ++ ra)) (Some (path_image b ++ rb))
  = Ret (path_image (a ++ b)).
Proof.
  intros. unfold concat_device_path_to_boxed_slice. rewrite !as_slice_path by auto. cbn [obind].
  pose proof (path_len a). pose proof (path_len b).
  set (la := N.of_nat (length (path_image a))). set (lb := N.of_nat (length (path_image b))).
  replace (la + lb <? 4) with false by lia.
  replace (la + lb - 4 <? la) with false by lia.
  replace (la <? 4) with false by lia.
  replace (la + lb - 4 - (la - 4) =? lb) with true by lia. cbn [negb].
  rewrite path_image_app. f_equal. f_equal. subst la. unfold path_image. rewrite app_length. cbn [length].
  replace (N.to_nat (N.of_nat (length (nodes_image a) + 4) - 4)) with (length (nodes_image a)) by lia.
  apply firstn_len_app.
Qed.

(** A null pointer is rejected by every utility that takes one (the debug
    build asserts instead). *)
Theorem c29_null : forall q,
  device_path_node_count false None = Fail InvalidParameter
  /\ copy_device_path_to_boxed_slice false None = Fail InvalidParameter
  /\ concat_device_path_to_boxed_slice false None q = Fail InvalidParameter
  /\ is_device_path_end None = Ret true.
Proof. intros. auto. Qed.

(** A node whose length field is zero makes the walk endless. *)
Theorem c29_zero_length_hangs : forall dbg t s rest,
  t <> 127 -> device_path_node_count dbg (Some (t :: s :: 0 :: 0 :: rest)) = Hang.
Proof.
  intros dbg t s rest Ht. unfold device_path_node_count.
  enough (G : forall fuel c z, node_count_loop fuel (t :: s :: 0 :: 0 :: rest) c z = Hang) by apply G.
  induction fuel as [|fuel IH]; intros c z; [reflexivity|].
  cbn [node_count_loop read_hdr]. change (0 + 256 * 0) with 0. cbn [h_type h_len].
  unfold TYPE_END. destruct (t =? 127) eqn:E; [apply N.eqb_eq in E; tauto|].
  unfold advance. cbn [N.to_nat skipn]. apply IH.
Qed.

(** ** Prefix and remainder *)

(** [remaining_device_path a b] succeeds exactly when the nodes of [a] are the
    first nodes of [b]; it then gives the rest of [b], terminator included, in
    place, and the number of nodes of [a].  Both paths may hold several
    instances. *)
Theorem c29_remaining : forall a b ra rb,
  Forall node_ok a -> Forall node_ok b -> unterminated a -> unterminated b ->
  (forall t, prefix_with a b t ->
     remaining_device_path (path_image a ++ ra) (path_image b ++ rb)
     = Ret (Some (path_image t ++ rb, N.of_nat (length a))))
  /\ ((forall t, ~ prefix_with a b t) ->
     remaining_device_path (path_image a ++ ra) (path_image b ++ rb) = Ret None).
Proof.
  intros a b ra rb Ha Hb Ua Ub. split.
  - intros t E. apply remaining_prefix; auto.
  - intros H. apply remaining_not_prefix; auto. intros [t E]. now apply (H t).
Qed.

Theorem c29_remaining_iff : forall a b ra rb,
  Forall node_ok a -> Forall node_ok b -> unterminated a -> unterminated b ->
  ((exists r c, remaining_device_path (path_image a ++ ra) (path_image b ++ rb) = Ret (Some (r, c)))
   <-> exists t, prefix_with a b t).
Proof.
  intros a b ra rb Ha Hb Ua Ub. destruct (prefix_dec a b) as [[t E]|H].
  - split; [intros _; exists t; exact E|]. intros _. rewrite (remaining_prefix a b ra rb t); eauto.
  - split.
    + intros (r & c & E). rewrite remaining_not_prefix in E by auto. discriminate.
    + intros [t E]. destruct H. now exists t.
Qed.

Theorem c29_is_end : forall n rest, node_ok n ->
  is_device_path_end (Some (node_image n ++ rest)) = Ret ((n_type n =? 127) && (n_sub n =? 255)).
Proof. intros. unfold is_device_path_end. now rewrite read_hdr_image. Qed.

(** ** Walking *)

(** The walker yields every node in order with its type, sub-type and data,
    then the terminator, and stops; instances do not stop it. *)
Theorem c29_walk : forall ns rest,
  Forall node_ok ns -> unterminated ns ->
  exists l, walk (path_image ns ++ rest) = Ret l
    /\ map (fun d => Node (h_type (d_hdr d)) (h_sub (d_hdr d)) (d_data d)) l = ns ++ [end_entire]
    /\ Forall (fun d => h_len (d_hdr d) = N.of_nat (length (d_data d)) + 4) l.
Proof.
  intros ns rest H Hu. unfold walk. rewrite walk_spec; auto.
  - eexists. split; [reflexivity|]. rewrite map_map. split.
    + erewrite map_ext; [apply map_id|]. intros []. reflexivity.
    + apply Forall_map, Forall_forall. intros n _. reflexivity.
  - rewrite app_length. pose proof (nodes_len ns). unfold path_image. rewrite app_length. cbn. lia.
Qed.

(** Two nodes read from memory compare equal exactly when their images do. *)
Theorem c29_node_eq : forall n m rn rm dn dm,
  node_ok n -> node_ok m ->
  dpnode_new (node_image n ++ rn) = Ret (Some dn) -> dpnode_new (node_image m ++ rm) = Ret (Some dm) ->
  (dpnode_eqb dn dm = true <-> node_image n = node_image m).
Proof.
  intros n m rn rm dn dm Hn Hm En Em. rewrite dpnode_new_image in En by auto. rewrite dpnode_new_image in Em by auto.
  inversion En; inversion Em; subst. unfold dpnode_eqb, dp_of. cbn [d_hdr d_data h_type h_sub].
  rewrite !andb_true_iff, !N.eqb_eq, bytes_eqb_eq. split.
  - intros [[A B] C]. destruct n, m; cbn in *; subst. reflexivity.
  - intros E. apply image_inj0 in E; auto. subst. auto.
Qed.

(** ** LocateDevicePath *)

(** A handle and the device path installed on it, if any. *)
Definition dev := (N * option (list node))%type.

Definition dev_ok (d : dev) : Prop :=
  match snd d with None => True | Some ns => Forall node_ok ns /\ unterminated ns end.

Definition dev_mem (d : dev) : N * option (list N) := (fst d, option_map path_image (snd d)).

(** [d]'s path is a prefix of [q], with [t] left over. *)
Definition matches (q : list node) (d : dev) (t : list node) : Prop :=
  exists p, snd d = Some p /\ prefix_with p q t.

(** [d] comes at position [i] and no other handle does better: earlier ones
    match strictly fewer nodes, later ones at most as many. *)
Definition best_at (q : list node) (ds : list dev) (h : N) (t : list node) : Prop :=
  exists pre d post, ds = pre ++ d :: post /\ fst d = h /\ matches q d t
    /\ (forall d' t', In d' pre -> matches q d' t' -> (length t < length t')%nat)
    /\ (forall d' t', In d' post -> matches q d' t' -> (length t <= length t')%nat).

Lemma locate_loop_spec q rest : Forall node_ok q -> unterminated q ->
  forall ds done best, Forall dev_ok ds ->
  match best with
  | None => forall d t, In d done -> ~ matches q d t
  | Some (h, (r, c)) => exists t, best_at q done h t /\ r = path_image t ++ rest
                        /\ c + N.of_nat (length t) = N.of_nat (length q)
  end ->
  match locate_loop (map dev_mem ds) (path_image q ++ rest) best with
  | Ret None => forall d t, In d (done ++ ds) -> ~ matches q d t
  | Ret (Some (h, (r, c))) => exists t, best_at q (done ++ ds) h t /\ r = path_image t ++ rest
  | _ => False
  end.
Proof.
  intros Hq Uq. induction ds as [|d ds IH]; intros done best Hds Hinv.
  - cbn [map locate_loop]. rewrite app_nil_r. destruct best as [[h [r c]]|]; auto.
    destruct Hinv as (t & A & B & _). eauto.
  - inversion Hds as [|? ? Hd Hds']; subst. cbn [map].
    replace (done ++ d :: ds) with ((done ++ [d]) ++ ds) by (rewrite <- app_assoc; reflexivity).
    destruct d as [h op]. unfold dev_mem at 1. cbn [fst snd].
    assert (Hskip : (forall t, ~ matches q (h, op) t) ->
       match best with
       | None => forall d t, In d (done ++ [(h, op)]) -> ~ matches q d t
       | Some (h', (r, c)) => exists t, best_at q (done ++ [(h, op)]) h' t /\ r = path_image t ++ rest
                        /\ c + N.of_nat (length t) = N.of_nat (length q)
       end).
    { intros Hno. destruct best as [[h' [r c]]|].
      - destruct Hinv as (t & (pre & d & post & -> & E & M & P1 & P2) & B & C). exists t.
        split; [|auto]. exists pre, d, (post ++ [(h, op)]). rewrite <- app_assoc. repeat (apply conj); auto.
        intros d' t' I M'. apply in_app_iff in I. destruct I as [I|[<-|[]]]; eauto. now apply Hno in M'.
      - intros d t I. apply in_app_iff in I. destruct I as [I|[<-|[]]]; auto. }
    destruct op as [p|]; cbn [option_map locate_loop].
    + destruct Hd as [Hp Up]. cbn [snd] in *.
      destruct (prefix_dec p q) as [[t E]|Hno].
      * replace (path_image p) with (path_image p ++ []) by apply app_nil_r.
        rewrite (remaining_prefix p q [] rest t) by auto. cbn [obind].
        assert (Mt : matches q (h, Some p) t) by (exists p; auto).
        assert (Lt : N.of_nat (length p) + N.of_nat (length t) = N.of_nat (length q)).
        { rewrite E, app_length. lia. }
        assert (Uniq : forall t', matches q (h, Some p) t' -> t' = t).
        { intros t' (p' & Ep & E'). cbn in Ep. inversion Ep; subst p'. unfold prefix_with in E'.
          rewrite E in E'. now apply app_inv_head in E'. }
        apply IH; auto.
        destruct best as [[h' [r c]]|].
        -- destruct Hinv as (t0 & (pre & d & post & -> & Ed & M & P1 & P2) & B & C).
           destruct (c <? N.of_nat (length p)) eqn:Ec.
           ++ exists t. split; [|auto]. exists (pre ++ d :: post), (h, Some p), [].
              repeat (apply conj); auto; [|intros ? ? []].
              intros d' t' I M'. apply in_app_iff in I.
              assert (length t0 <= length t')%nat; [|lia].
              destruct I as [I|[<-|I]].
              ** specialize (P1 _ _ I M'). lia.
              ** destruct M as (p1 & G1 & G2), M' as (p2 & G3 & G4). rewrite G1 in G3. inversion G3; subst p2.
                 unfold prefix_with in *. rewrite G2 in G4. apply app_inv_head in G4. subst. lia.
              ** eauto.
           ++ exists t0. split; [|auto]. exists pre, d, (post ++ [(h, Some p)]).
              rewrite <- app_assoc. repeat (apply conj); auto.
              intros d' t' I M'. apply in_app_iff in I. destruct I as [I|[<-|[]]]; eauto.
              apply Uniq in M'. subst. lia.
        -- exists t. split; [|auto]. exists done, (h, Some p), []. repeat (apply conj); auto; [|intros ? ? []].
           intros d' t' I M'. now apply Hinv in M'.
      * replace (path_image p) with (path_image p ++ []) by apply app_nil_r.
        rewrite remaining_not_prefix by auto. cbn [obind]. apply IH; auto. apply Hskip.
        intros t (p' & Ep & E'). cbn in Ep. inversion Ep; subst. apply Hno. now exists t.
    + apply IH; auto. apply Hskip. intros t (p & Ep & _). discriminate.
Qed.

(** LocateDevicePath returns a handle of the protocol whose device path is the
    longest prefix of the one asked for (the first of them, in the order the
    database lists them) and the unmatched remainder; it reports NOT_FOUND
    exactly when no handle's path is a prefix. *)
Theorem c29_locate_device_path : forall q rest ds,
  Forall node_ok q -> unterminated q -> Forall dev_ok ds ->
  match core_locate_device_path (Ok (map dev_mem ds)) (Some (path_image q ++ rest)) with
  | Ret (r, h) => exists t, best_at q ds h t /\ r = path_image t ++ rest
  | Fail e => e = NotFound /\ forall d t, In d ds -> ~ matches q d t
  | _ => False
  end.
Proof.
  intros q rest ds Hq Uq Hds. cbn [core_locate_device_path].
  pose proof (locate_loop_spec q rest Hq Uq ds [] None Hds) as H.
  cbn [app] in H. specialize (H (fun d t (I : In d []) => match I with end)).
  destruct (locate_loop _ _ _) as [[[h [r c]]|]| | |]; cbn [obind]; auto; try tauto.
Qed.

Theorem c29_locate_errors : forall e hs dp,
  core_locate_device_path hs None = Fail InvalidParameter
  /\ core_locate_device_path (Err e) (Some dp) = Fail e.
Proof. auto. Qed.

(** ** Concrete cases *)
Definition ex_root := Node 2 1 [3;10;208;65;0;0;0;0].
Definition ex_pci := Node 1 1 [0;28].
Definition ex_ctl := Node 1 5 [1;0;0;0].

Example ex_path_ok : Forall node_ok [ex_root; ex_pci; ex_ctl] /\ one_instance [ex_root; ex_pci; ex_ctl]
  /\ unterminated [ex_root; end_instance; ex_pci].
Proof. repeat (apply conj); repeat constructor; cbn; unfold is_byte; lia. Qed.

Example ex_count : device_path_node_count false (Some (path_image [ex_root; ex_pci] ++ [9;9]))
  = Ret (3, 22).
Proof. vm_compute. reflexivity. Qed.

Example ex_remaining :
  remaining_device_path (path_image [ex_root; ex_pci]) (path_image [ex_root; ex_pci; ex_ctl])
  = Ret (Some (path_image [ex_ctl], 2)).
Proof. vm_compute. reflexivity. Qed.

Example ex_locate :
  core_locate_device_path
    (Ok (map dev_mem [(10, Some [ex_root]); (11, None); (12, Some [ex_root; ex_pci]);
                      (13, Some [ex_root; ex_pci]); (14, Some [ex_ctl])]))
    (Some (path_image [ex_root; ex_pci; ex_ctl]))
  = Ret (path_image [ex_ctl], 12).
Proof. vm_compute. reflexivity. Qed.

Print Assumptions c29_node_count.
Print Assumptions c29_copy.
Print Assumptions c29_copy_stops_at_first_end.
Print Assumptions c29_copy_multi_instance_refuted.
Print Assumptions c29_concat.
Print Assumptions c29_null.
Print Assumptions c29_zero_length_hangs.
Print Assumptions c29_remaining.
Print Assumptions c29_remaining_iff.
Print Assumptions c29_is_end.
Print Assumptions c29_walk.
Print Assumptions c29_node_eq.
Print Assumptions c29_locate_device_path.
Print Assumptions c29_locate_errors.
