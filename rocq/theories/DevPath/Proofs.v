(** * Lemmas about device path images *)

From Verif Require Import Base.Prelude DevPath.Model DevPath.Sdk DevPath.Spec.
Open Scope N_scope.

Definition nlen (n : node) : N := N.of_nat (length (n_data n)) + 4.

Lemma image_length n : N.of_nat (length (node_image n)) = nlen n.
Proof. unfold node_image, nlen. cbn [length]. lia. Qed.

Lemma image_length_nat n : N.to_nat (nlen n) = length (node_image n).
Proof. rewrite <- image_length. lia. Qed.

Lemma read_hdr_image n r : node_ok n ->
  read_hdr (node_image n ++ r) = Some (Hdr (n_type n) (n_sub n) (nlen n)).
Proof.
  intros (_ & _ & _ & H). unfold node_image. cbn [app read_hdr]. fold (nlen n).
  rewrite (N.add_comm (nlen n mod 256)). rewrite <- N.div_mod' . reflexivity.
Qed.

Lemma read_hdr_app n l r : node_ok n -> l = node_image n ++ r ->
  read_hdr l = Some (Hdr (n_type n) (n_sub n) (nlen n)).
Proof. intros H ->. now apply read_hdr_image. Qed.

Lemma advance_image n r : advance (nlen n) (node_image n ++ r) = r.
Proof.
  unfold advance. rewrite image_length_nat, skipn_app, skipn_all, Nat.sub_diag. reflexivity.
Qed.

Lemma firstn_len_app {A} (a b : list A) : firstn (length a) (a ++ b) = a.
Proof. rewrite firstn_app, firstn_all, Nat.sub_diag. cbn. now rewrite app_nil_r. Qed.

Lemma skipn_len_app {A} (a b : list A) : skipn (length a) (a ++ b) = b.
Proof. rewrite skipn_app, skipn_all, Nat.sub_diag. reflexivity. Qed.

Lemma raw_parts_app a b : raw_parts (a ++ b) (N.of_nat (length a)) = Ret a.
Proof.
  unfold raw_parts. rewrite app_length.
  replace (N.of_nat (length a) <=? N.of_nat (length a + length b)) with true by lia.
  rewrite Nat2N.id, firstn_len_app. reflexivity.
Qed.

Lemma raw_parts_image n r : raw_parts (node_image n ++ r) (nlen n) = Ret (node_image n).
Proof. rewrite <- image_length. apply raw_parts_app. Qed.

Lemma bytes_eqb_eq a : forall b, bytes_eqb a b = true <-> a = b.
Proof.
  induction a as [|x a IH]; intros [|y b]; cbn [bytes_eqb]; split; intros H; try easy.
  - apply andb_true_iff in H. destruct H as [E H]. apply N.eqb_eq in E. apply IH in H. now subst.
  - inversion H; subst. rewrite N.eqb_refl. cbn. now apply IH.
Qed.

Lemma bytes_eqb_refl a : bytes_eqb a a = true.
Proof. now apply bytes_eqb_eq. Qed.

Lemma image_inj n m r s : node_ok n -> node_ok m ->
  node_image n ++ r = node_image m ++ s -> n = m /\ r = s.
Proof.
  intros Hn Hm E.
  assert (Hl : nlen n = nlen m).
  { pose proof (read_hdr_image n r Hn) as A. rewrite E, (read_hdr_image m s Hm) in A. now inversion A. }
  assert (Hd : length (n_data n) = length (n_data m)) by (unfold nlen in Hl; lia).
  destruct n as [t u d], m as [t' u' d']. unfold node_image in E. cbn in *.
  inversion E as [[E1 E2 E3 E4 E5]]; subst.
  assert (d = d' /\ r = s) as [-> ->]; [|auto].
  clear - Hd E5. revert d' Hd E5. induction d as [|x d IH]; intros [|y d'] L E; cbn in *; try lia; auto.
  inversion E; subst. destruct (IH d') as [-> ->]; auto.
Qed.

Lemma image_inj0 n m : node_ok n -> node_ok m -> node_image n = node_image m -> n = m.
Proof.
  intros A B E. destruct (image_inj n m [] [] A B); auto. now rewrite !app_nil_r.
Qed.

Lemma end_ok : node_ok end_entire.
Proof. unfold node_ok, end_entire; cbn. repeat split; auto; lia. Qed.

Lemma end_image : node_image end_entire = [127; 255; 4; 0].
Proof. reflexivity. Qed.

Lemma path_image_end ns : path_image ns = nodes_image (ns ++ [end_entire]).
Proof. unfold path_image, nodes_image. rewrite flat_map_app. reflexivity. Qed.

Lemma path_image_cons n ns : path_image (n :: ns) = node_image n ++ path_image ns.
Proof. unfold path_image, nodes_image. cbn [flat_map]. now rewrite app_assoc. Qed.

Lemma nodes_image_cons n ns : nodes_image (n :: ns) = node_image n ++ nodes_image ns.
Proof. reflexivity. Qed.

Lemma nodes_image_app a b : nodes_image (a ++ b) = nodes_image a ++ nodes_image b.
Proof. unfold nodes_image. now rewrite flat_map_app. Qed.

Lemma path_image_app a b : path_image (a ++ b) = nodes_image a ++ path_image b.
Proof. unfold path_image. now rewrite nodes_image_app, app_assoc. Qed.

Lemma image_nonempty n : exists x t, node_image n = x :: t.
Proof. unfold node_image. eauto. Qed.

Lemma image_len_pos n : (4 <= length (node_image n))%nat.
Proof. unfold node_image. cbn [length]. lia. Qed.

Lemma path_len ns : (4 <= length (path_image ns))%nat.
Proof. unfold path_image. rewrite app_length. cbn. lia. Qed.

Lemma nodes_len ns : (4 * length ns <= length (nodes_image ns))%nat.
Proof.
  induction ns as [|n ns IH]; [cbn; lia|]. rewrite nodes_image_cons, app_length. cbn [length].
  pose proof (image_len_pos n). lia.
Qed.

(** ** Raw-pointer utilities *)

(** Stops at the first end node of any kind. *)
Lemma node_count_loop_spec pre : forall e rest fuel c s,
  Forall node_ok pre -> node_ok e -> one_instance pre -> n_type e = 127 ->
  (length (nodes_image pre) < fuel)%nat ->
  node_count_loop fuel (nodes_image (pre ++ [e]) ++ rest) c s
  = Ret (c + N.of_nat (length pre) + 1, s + N.of_nat (length (nodes_image (pre ++ [e])))).
Proof.
  induction pre as [|n pre IH]; intros e rest fuel c s Hok He Hone Ht Hf.
  - destruct fuel as [|fuel]; [lia|]. cbn [app nodes_image flat_map node_count_loop].
    rewrite app_nil_r, read_hdr_image by auto. cbn [h_len h_type]. rewrite Ht.
    change (127 =? TYPE_END) with true. cbn iota. rewrite <- image_length.
    f_equal. f_equal; cbn [length]; lia.
  - destruct fuel as [|fuel]; [lia|].
    inversion Hok as [|? ? Hn Hok']; subst. inversion Hone as [|? ? Hn1 Hone']; subst.
    cbn [app]. rewrite nodes_image_cons in *. rewrite app_length in Hf. rewrite <- app_assoc. cbn [node_count_loop].
    rewrite read_hdr_image by auto. cbn [h_len h_type].
    unfold TYPE_END. destruct (n_type n =? 127) eqn:E; [apply N.eqb_eq in E; tauto|].
    rewrite advance_image, IH; auto.
    + rewrite app_length, Nat2N.inj_add, image_length. cbn [length]. f_equal. f_equal; lia.
    + pose proof (image_len_pos n). lia.
Qed.

Lemma node_count_first_end dbg pre e rest :
  Forall node_ok pre -> node_ok e -> one_instance pre -> n_type e = 127 ->
  device_path_node_count dbg (Some (nodes_image (pre ++ [e]) ++ rest))
  = Ret (N.of_nat (length pre) + 1, N.of_nat (length (nodes_image (pre ++ [e])))).
Proof.
  intros. unfold device_path_node_count. rewrite node_count_loop_spec; auto.
  rewrite nodes_image_app, !app_length. lia.
Qed.

Lemma as_slice_first_end dbg pre e rest :
  Forall node_ok pre -> node_ok e -> one_instance pre -> n_type e = 127 ->
  device_path_as_slice dbg (Some (nodes_image (pre ++ [e]) ++ rest)) = Ret (nodes_image (pre ++ [e])).
Proof.
  intros. unfold device_path_as_slice. rewrite node_count_first_end by auto. cbn [obind].
  apply raw_parts_app.
Qed.

Lemma as_slice_path dbg ns rest : Forall node_ok ns -> one_instance ns ->
  device_path_as_slice dbg (Some (path_image ns ++ rest)) = Ret (path_image ns).
Proof. intros. rewrite path_image_end. apply as_slice_first_end; auto using end_ok. Qed.

Lemma remaining_loop_spec a : forall b ra rb fuel c,
  Forall node_ok a -> Forall node_ok b -> unterminated a -> unterminated b ->
  (length (nodes_image a) < fuel)%nat ->
  (forall t, b = a ++ t ->
     remaining_loop fuel (path_image a ++ ra) (path_image b ++ rb) c
     = Ret (Some (path_image t ++ rb, c + N.of_nat (length a))))
  /\ ((~ exists t, b = a ++ t) ->
     remaining_loop fuel (path_image a ++ ra) (path_image b ++ rb) c = Ret None).
Proof.
  induction a as [|n a IH]; intros b ra rb fuel c Ha Hb Ua Ub Hf.
  - destruct fuel as [|fuel]; [lia|]. split.
    + intros t ->. cbn [app]. unfold path_image at 1. cbn [nodes_image flat_map app remaining_loop read_hdr].
      assert (E : exists h, read_hdr (path_image t ++ rb) = Some h).
      { destruct t as [|m t]; [cbn; eauto|]. rewrite path_image_cons, <- app_assoc.
        inversion Hb; subst. rewrite read_hdr_image by auto. eauto. }
      destruct E as [h ->]. cbn [hdr_is_end]. cbn. f_equal. f_equal. f_equal. lia.
    + intros H. destruct H. now exists b.
  - destruct fuel as [|fuel]; [lia|].
    inversion Ha as [|? ? Hn Ha']; subst. inversion Ua as [|? ? Hu Ua']; subst.
    assert (E : exists m b', node_ok m /\ Forall node_ok b' /\ unterminated b'
                 /\ path_image b = node_image m ++ (match b with [] => [] | _ => path_image b' end)
                 /\ (b = [] /\ m = end_entire \/ b = m :: b')).
    { destruct b as [|m b'].
      - exists end_entire, []. repeat (apply conj); auto using end_ok; try apply end_ok; constructor; auto.
      - inversion Hb; inversion Ub; subst. exists m, b'. auto 10 using path_image_cons. }
    destruct E as (m & b' & Hm & Hb' & Ub' & Eb & Hsel).
    assert (Hstep : remaining_loop (S fuel) (path_image (n :: a) ++ ra) (path_image b ++ rb) c
       = if bytes_eqb (node_image n) (node_image m)
         then remaining_loop fuel (path_image a ++ ra) (advance (nlen m) (path_image b ++ rb)) (c + 1)
         else Ret None).
    { rewrite path_image_cons, <- app_assoc, Eb, <- app_assoc. cbn [remaining_loop].
      rewrite !read_hdr_image by auto. unfold hdr_is_end. cbn [h_type h_sub h_len].
      destruct ((n_type n =? TYPE_END) && (n_sub n =? SUBTYPE_ENTIRE)) eqn:E.
      { apply andb_true_iff in E. destruct E as [E1 E2]. apply N.eqb_eq in E1, E2. tauto. }
      rewrite raw_parts_image. cbn [obind]. rewrite raw_parts_image. cbn [obind].
      destruct (bytes_eqb _ _); auto. now rewrite !advance_image. }
    rewrite Hstep.
    rewrite nodes_image_cons, app_length in Hf. pose proof (image_len_pos n).
    destruct Hsel as [[-> ->] | ->].
    + split; [intros t Et; discriminate|]. intros _.
      destruct (bytes_eqb (node_image n) (node_image end_entire)) eqn:E; auto.
      apply bytes_eqb_eq, image_inj0 in E; auto using end_ok. subst n. cbn in Hu. tauto.
    + rewrite path_image_cons, <- app_assoc, advance_image.
      split.
      * intros t Et. cbn [app] in Et. inversion Et; subst. rewrite bytes_eqb_refl.
        destruct (IH (a ++ t) ra rb fuel (c + 1) Ha' Hb' Ua' Ub') as [G _]; [lia|].
        rewrite (G t eq_refl). cbn [length]. do 3 f_equal. lia.
      * intros Hno. destruct (bytes_eqb (node_image n) (node_image m)) eqn:E; auto.
        apply bytes_eqb_eq, image_inj0 in E; auto. subst m.
        destruct (IH b' ra rb fuel (c + 1) Ha' Hb' Ua' Ub') as [_ G]; [lia|].
        apply G. intros [t ->]. apply Hno. now exists t.
Qed.

(** ** Walking *)
Definition dp_of (n : node) : dpnode := DpNode (Hdr (n_type n) (n_sub n) (nlen n)) (n_data n).

Lemma dpnode_new_image n r : node_ok n -> dpnode_new (node_image n ++ r) = Ret (Some (dp_of n)).
Proof.
  intros H. unfold dpnode_new. rewrite read_hdr_image by auto. cbn [h_len].
  replace (nlen n <? 4) with false by (unfold nlen; lia).
  replace (nlen n - 4) with (N.of_nat (length (n_data n))) by (unfold nlen; lia).
  unfold advance, node_image. change (N.to_nat 4) with 4%nat. cbn [app skipn].
  rewrite raw_parts_app. reflexivity.
Qed.

Lemma walk_spec ns : forall rest fuel,
  Forall node_ok ns -> unterminated ns -> (length ns + 2 <= fuel)%nat ->
  walker_collect fuel (Some (path_image ns ++ rest)) = Ret (map dp_of (ns ++ [end_entire])).
Proof.
  induction ns as [|n ns IH]; intros rest fuel Hok Hu Hf.
  - destruct fuel as [|[|fuel]]; cbn [length] in Hf; try lia.
    cbn [app]. unfold path_image. cbn [nodes_image flat_map app].
    cbn [walker_collect]. cbn [walker_next].
    change (127 :: 255 :: 4 :: 0 :: rest) with (node_image end_entire ++ rest).
    rewrite dpnode_new_image by apply end_ok. cbn. reflexivity.
  - inversion Hok as [|? ? Hn Hok']; subst. inversion Hu as [|? ? Hn1 Hu']; subst.
    destruct fuel as [|fuel]; cbn [length] in Hf; try lia.
    rewrite path_image_cons, <- app_assoc. cbn [walker_collect walker_next].
    rewrite dpnode_new_image by auto. cbn [obind]. unfold is_device_path_end.
    rewrite read_hdr_image by auto. cbn [obind hdr_is_end h_type h_sub].
    destruct ((n_type n =? TYPE_END) && (n_sub n =? SUBTYPE_ENTIRE)) eqn:E.
    { apply andb_true_iff in E. destruct E as [E1 E2]. apply N.eqb_eq in E1, E2. tauto. }
    unfold hdr_is_end. cbn [h_type h_sub]. rewrite E.
    unfold dp_of at 1. cbn [d_hdr h_len]. rewrite advance_image, IH by (auto; lia).
    reflexivity.
Qed.

(** ** Locating *)
Definition is_prefix (a b : list node) : Prop := exists t, b = a ++ t.

Lemma remaining_prefix a b ra rb t :
  Forall node_ok a -> Forall node_ok b -> unterminated a -> unterminated b -> b = a ++ t ->
  remaining_device_path (path_image a ++ ra) (path_image b ++ rb)
  = Ret (Some (path_image t ++ rb, N.of_nat (length a))).
Proof.
  intros Ha Hb Ua Ub E. unfold remaining_device_path.
  assert (L : (length (nodes_image a) < S (length (path_image a ++ ra)))%nat)
    by (rewrite app_length; unfold path_image; rewrite app_length; lia).
  destruct (remaining_loop_spec a b ra rb _ 0 Ha Hb Ua Ub L) as [G _].
  rewrite (G t E). do 3 f_equal.
Qed.

Lemma remaining_not_prefix a b ra rb :
  Forall node_ok a -> Forall node_ok b -> unterminated a -> unterminated b -> ~ (exists t, b = a ++ t) ->
  remaining_device_path (path_image a ++ ra) (path_image b ++ rb) = Ret None.
Proof.
  intros Ha Hb Ua Ub E. unfold remaining_device_path.
  assert (L : (length (nodes_image a) < S (length (path_image a ++ ra)))%nat)
    by (rewrite app_length; unfold path_image; rewrite app_length; lia).
  destruct (remaining_loop_spec a b ra rb _ 0 Ha Hb Ua Ub L) as [_ G]. auto.
Qed.

Lemma node_eq_dec (x y : node) : {x = y} + {x <> y}.
Proof. repeat decide equality. Qed.

Lemma prefix_dec (a b : list node) : {t | b = a ++ t} + {~ exists t, b = a ++ t}.
Proof.
  revert b. induction a as [|x a IH]; intros b.
  - left. now exists b.
  - destruct b as [|y b].
    + right. intros [t E]. discriminate.
    + destruct (node_eq_dec x y) as [<-|N].
      * destruct (IH b) as [[t ->]|H]; [left; now exists t|].
        right. intros [t E]. inversion E. apply H. now exists t.
      * right. intros [t E]. inversion E. auto.
Qed.

(** ** The SDK *)
Definition an_of (n : node) : anode := ANode (n_type n) (n_sub n) (nlen n) (n_data n).

Lemma overlay_full a buf : length a = length buf -> overlay a buf = a.
Proof. intros H. unfold overlay. rewrite H, skipn_all. apply app_nil_r. Qed.

Lemma append_node dbg buf n : node_ok n -> append dbg buf (an_of n) = Ret (buf ++ node_image n).
Proof.
  intros (H1 & H2 & H3 & H4). unfold append, write_into, an_of. cbn [a_len a_body hdr_bytes a_type a_sub].
  replace (nlen n <? 4) with false by (unfold nlen; lia).
  replace (nlen n - 4 <? N.of_nat (length (n_data n))) with false by (unfold nlen; lia).
  replace (nlen n =? 4 + N.of_nat (length (n_data n))) with true by (unfold nlen; lia).
  rewrite andb_false_r. cbn iota beta zeta. f_equal. f_equal.
  rewrite overlay_full.
  - unfold node_image, hdr_bytes. cbn [a_len a_type a_sub app]. rewrite (N.mod_small (nlen n) 65536) by (unfold nlen; lia). reflexivity.
  - unfold zeros. rewrite repeat_length, app_length. cbn. unfold nlen. lia.
Qed.

Lemma append_all_spec dbg ns : forall buf last, Forall node_ok ns ->
  append_all dbg buf last (map an_of ns)
  = Ret (buf ++ nodes_image ns, match ns with [] => last | _ => Some (an_of (List.last ns end_entire)) end).
Proof.
  induction ns as [|n ns IH]; intros buf la H; cbn [map append_all].
  - cbn [nodes_image flat_map]. now rewrite app_nil_r.
  - inversion H; subst. rewrite append_node by auto. cbn [obind]. rewrite IH by auto.
    rewrite nodes_image_cons, app_assoc. destruct ns; reflexivity.
Qed.

Lemma read_unknown_image n r : node_ok n ->
  read_unknown (node_image n ++ r) = Ret (Some (an_of n, nlen n)).
Proof.
  intros H. unfold read_unknown. rewrite read_hdr_image by auto. cbn [h_len h_type h_sub].
  rewrite app_length, Nat2N.inj_add, image_length.
  replace (nlen n + N.of_nat (length r) <? nlen n) with false by lia.
  replace (nlen n <? 4) with false by (unfold nlen; lia).
  unfold an_of. do 4 f_equal.
  unfold node_image. cbn [app skipn]. replace (N.to_nat (nlen n - 4)) with (length (n_data n)) by (unfold nlen; lia).
  apply firstn_len_app.
Qed.

Lemma iter_collect_spec dbg ns : forall fuel, Forall node_ok ns -> (length ns < fuel)%nat ->
  iter_collect dbg fuel (nodes_image ns) = Ret (map an_of ns).
Proof.
  induction ns as [|n ns IH]; intros fuel H Hf; (destruct fuel as [|fuel]; [cbn in Hf; lia|]).
  - reflexivity.
  - inversion H; subst. cbn [length] in Hf. rewrite nodes_image_cons. cbn [iter_collect].
    assert (E : iter_next dbg (node_image n ++ nodes_image ns) = Ret (Some (an_of n), nodes_image ns)).
    { unfold iter_next. destruct (image_nonempty n) as (x & t & Ei). rewrite Ei at 1. cbn [app].
      rewrite read_unknown_image by auto. cbn [obind]. rewrite image_length_nat, skipn_len_app. reflexivity. }
    rewrite E. cbn [obind]. rewrite IH by (auto; lia). reflexivity.
Qed.

Lemma iter_nodes dbg ns : Forall node_ok ns -> iter dbg (nodes_image ns) = Ret (map an_of ns).
Proof. intros H. apply iter_collect_spec; auto. pose proof (nodes_len ns). lia. Qed.

Lemma Forall_ok_end ns : Forall node_ok ns -> Forall node_ok (ns ++ [end_entire]).
Proof. intros. apply Forall_app. auto using end_ok. Qed.

Lemma iter_path dbg ns : Forall node_ok ns -> iter dbg (path_image ns) = Ret (map an_of (ns ++ [end_entire])).
Proof. intros. rewrite path_image_end. apply iter_nodes. now apply Forall_ok_end. Qed.

Lemma drop_end_path dbg ns : drop_end dbg (path_image ns) = Ret (nodes_image ns).
Proof.
  unfold drop_end. pose proof (path_len ns).
  replace (N.of_nat (length (path_image ns)) <? 4) with false by lia.
  f_equal. unfold path_image. rewrite app_length. cbn [length].
  replace (N.to_nat (N.of_nat (length (nodes_image ns) + 4) - 4)) with (length (nodes_image ns)) by lia.
  apply firstn_len_app.
Qed.

Lemma skip_nodes_spec a : forall b, Forall node_ok a ->
  skip_nodes (length a) (nodes_image (a ++ b)) = Ret (nodes_image b).
Proof.
  induction a as [|n a IH]; intros b H; [reflexivity|].
  inversion H; subst. cbn [length skip_nodes app]. rewrite nodes_image_cons, read_hdr_image by auto. cbn [h_len].
  rewrite app_length, Nat2N.inj_add, image_length.
  replace (nlen n + _ <? nlen n) with false by lia.
  rewrite image_length_nat, skipn_len_app. auto.
Qed.

Lemma an_of_eqb x y : node_ok x -> node_ok y -> (anode_eqb (an_of x) (an_of y) = true <-> x = y).
Proof.
  intros Hx Hy. unfold anode_eqb, an_of. cbn [a_type a_sub a_len a_body].
  rewrite !andb_true_iff, !N.eqb_eq, bytes_eqb_eq. destruct x as [a b c], y as [d e f]; cbn. split.
  - intros [[[-> ->] _] ->]. reflexivity.
  - intros E. inversion E; subst. auto.
Qed.
