(** C37: the runtime lists published to the runtime protocol are well-formed and complete. *)
From Verif Require Import Base.Prelude Runtime.Model Runtime.Spec.
Local Open Scope N_scope.

(** ** histories grow at the end *)
Lemma existsb_app_r : forall (f : op -> bool) a b, existsb f (a ++ b) = existsb f a || existsb f b.
Proof. intros. apply existsb_app. Qed.

Definition is_rm_image (hd : N) (o : op) : bool := match o with RemoveImage x => x =? hd | _ => false end.
Definition is_rm_event (e : N) (o : op) : bool := match o with RemoveEvent x => x =? e | _ => false end.

Lemma live_images_snoc : forall h o, live_images (h ++ [o]) =
  match o with
  | AddImage n b s r hd => live_images h ++ [mkimage n b s r hd]
  | RemoveImage hd => filter (fun i => negb (i_handle i =? hd)) (live_images h)
  | _ => live_images h
  end.
Proof.
  induction h as [|x h IH]; intro o; [destruct o; reflexivity|].
  destruct x as [a b|n b s r hd|hd|n e ty tpl f g c|e]; cbn [app live_images]; try apply IH.
  rewrite existsb_app_r. cbn [existsb]. rewrite orb_false_r.
  change (existsb (fun o => match o with RemoveImage x => x =? hd | _ => false end) h) with (existsb (is_rm_image hd) h).
  destruct (existsb (is_rm_image hd) h) eqn:E; cbn [orb].
  - rewrite IH. reflexivity.
  - destruct o as [a' b'|n' b' s' r' hd'|hd'|n' e' ty' tpl' f' g' c'|e']; rewrite IH; try reflexivity.
    cbn [filter i_handle]. rewrite (N.eqb_sym hd hd'). destruct (hd' =? hd); reflexivity.
Qed.

Lemma live_events_snoc : forall h o, live_events (h ++ [o]) =
  match o with
  | AddEvent n e ty tpl (Some f) g c =>
      live_events h ++ [mkrevent n (published_type ty g) tpl f (match c with Some x => x | None => 0 end) e]
  | RemoveEvent e => filter (fun i => negb (v_event i =? e)) (live_events h)
  | _ => live_events h
  end.
Proof.
  induction h as [|x h IH]; intro o; [destruct o as [| | |n e ty tpl [f|] g c|]; reflexivity|].
  destruct x as [a b|n b s r hd|hd|n e ty tpl [f|] g c|e]; cbn [app live_events]; try apply IH.
  rewrite existsb_app_r. cbn [existsb]. rewrite orb_false_r.
  change (existsb (fun o => match o with RemoveEvent x => x =? e | _ => false end) h) with (existsb (is_rm_event e) h).
  destruct (existsb (is_rm_event e) h) eqn:E; cbn [orb].
  - rewrite IH. reflexivity.
  - destruct o as [a' b'|n' b' s' r' hd'|hd'|n' e' ty' tpl' [f'|] g' c'|e']; rewrite IH; try reflexivity.
    cbn [filter v_event]. rewrite (N.eqb_sym e e'). destruct (e' =? e); reflexivity.
Qed.

Lemma protocol_snoc : forall h o cur, protocol (h ++ [o]) cur =
  match o with ProtocolInstalled a b => Some (a, b) | _ => protocol h cur end.
Proof.
  induction h as [|x h IH]; intros o cur; [destruct o; reflexivity|].
  destruct x; cbn [app protocol]; apply IH.
Qed.

(** ** the contents follow the history *)
Lemma update_images : forall d, r_images (update_protocol_lists d) = r_images d.
Proof. intros [p i e m]. unfold update_protocol_lists. destruct p as [[? ?]|]; reflexivity. Qed.
Lemma update_events : forall d, r_events (update_protocol_lists d) = r_events d.
Proof. intros [p i e m]. unfold update_protocol_lists. destruct p as [[? ?]|]; reflexivity. Qed.
Lemma update_proto : forall d, r_proto (update_protocol_lists d) = r_proto d.
Proof. intros [p i e m]. unfold update_protocol_lists. destruct p as [[? ?]|]; reflexivity. Qed.

Definition after (m0 : memory) (h : list op) : rdata := fold_left (fun d o => step o d) h (rd_init m0).

Lemma after_snoc : forall m0 h o, after m0 (h ++ [o]) = step o (after m0 h).
Proof. intros. unfold after. rewrite fold_left_app. reflexivity. Qed.

Lemma vac_type : forall ty g,
  match g with Some x => if x =? VIRTUAL_ADDRESS_CHANGE then EVT_SIGNAL_VIRTUAL_ADDRESS_CHANGE else ty | None => ty end
  = published_type ty g.
Proof.
  intros ty [[|[p|p|]]|]; reflexivity.
Qed.

Lemma after_contents : forall m0 h,
  r_images (after m0 h) = live_images h /\ r_events (after m0 h) = live_events h /\
  r_proto (after m0 h) = protocol h None.
Proof.
  intros m0 h. induction h as [|o h IH] using rev_ind; [auto|].
  destruct IH as (I & E & P). rewrite after_snoc, live_images_snoc, live_events_snoc, protocol_snoc.
  destruct o as [a b|n b s r hd|hd|n e ty tpl f g c|e]; cbn [step].
  - unfold protocol_notify. rewrite update_images, update_events, update_proto. cbn. auto.
  - unfold add_runtime_image. rewrite update_images, update_events, update_proto. cbn. rewrite I. auto.
  - unfold remove_runtime_image. rewrite update_images, update_events, update_proto. cbn. rewrite I. auto.
  - unfold add_runtime_event. rewrite vac_type. destruct f as [f|]; [|auto].
    rewrite update_images, update_events, update_proto. cbn. rewrite E. auto.
  - unfold remove_runtime_event. rewrite update_images, update_events, update_proto. cbn. rewrite E. auto.
Qed.

(** ** relinking builds a ring *)
Lemma relink_loop_other : forall nodes prev m x, x <> prev -> ~ In x nodes ->
  snd (relink_loop prev nodes m) x = m x.
Proof.
  induction nodes as [|n t IH]; intros prev m x NP NI; [reflexivity|]. cbn [relink_loop].
  cbn [In] in NI. rewrite IH by (try (intros ->); tauto). unfold set_back, set_fwd.
  destruct (x =? n) eqn:E1; [apply N.eqb_eq in E1; subst; tauto|].
  destruct (x =? prev) eqn:E2; [apply N.eqb_eq in E2; congruence|]. reflexivity.
Qed.

Lemma relink_loop_prev_back : forall nodes prev m, ~ In prev nodes ->
  back (snd (relink_loop prev nodes m)) prev = back m prev.
Proof.
  intros [|n t] prev m NI; [reflexivity|]. cbn [relink_loop]. cbn [In] in NI. unfold back.
  rewrite relink_loop_other by (try (intros ->); tauto).
  unfold set_back, set_fwd. destruct (prev =? n) eqn:E; [apply N.eqb_eq in E; subst; tauto|].
  rewrite N.eqb_refl. reflexivity.
Qed.

Definition lastn (prev : N) (nodes : list N) : N := last nodes prev.

Lemma relink_loop_last : forall nodes prev m, fst (relink_loop prev nodes m) = last nodes prev.
Proof.
  induction nodes as [|n t IH]; intros prev m; [reflexivity|]. cbn [relink_loop]. rewrite IH.
  destruct t as [|a t]; [reflexivity|]. change (last (n :: a :: t) prev) with (last (a :: t) prev).
  clear. revert a. induction t as [|b t IH]; intro a; [reflexivity|].
  change (last (a :: b :: t) n) with (last (b :: t) n). change (last (a :: b :: t) prev) with (last (b :: t) prev). apply IH.
Qed.

(** After the loop, forward links run along the nodes and back links mirror them. *)
Fixpoint chain (m : memory) (prev : N) (nodes : list N) : Prop :=
  match nodes with
  | [] => True
  | n :: t => fwd m prev = n /\ back m n = prev /\ chain m n t
  end.

Lemma relink_loop_chain : forall nodes prev m, NoDup (prev :: nodes) ->
  chain (snd (relink_loop prev nodes m)) prev nodes.
Proof.
  induction nodes as [|n t IH]; intros prev m ND; [exact I|].
  inversion ND as [|? ? NI ND']; subst. cbn [In] in NI. inversion ND' as [|? ? NI' _]; subst.
  cbn [relink_loop chain]. split; [|split].
  - unfold fwd. rewrite relink_loop_other by (try (intros ->); tauto).
    unfold set_back, set_fwd. destruct (prev =? n) eqn:E; [apply N.eqb_eq in E; subst; tauto|].
    rewrite N.eqb_refl. reflexivity.
  - rewrite relink_loop_prev_back by exact NI'. unfold back, set_back. rewrite N.eqb_refl. reflexivity.
  - apply IH. exact ND'.
Qed.

Lemma chain_ext : forall nodes m m' prev,
  (forall x, In x (prev :: nodes) -> x <> last nodes prev -> fwd m' x = fwd m x) ->
  (forall x, In x nodes -> back m' x = back m x) ->
  NoDup (prev :: nodes) ->
  chain m prev nodes -> chain m' prev nodes.
Proof.
  induction nodes as [|n t IH]; intros m m' prev F B ND C; [exact I|].
  cbn [chain] in *. inversion ND as [|? ? NI ND']; subst. destruct C as (C1 & C2 & C3).
  assert (LN : forall d d', last (n :: t) d = last (n :: t) d').
  { clear. intros d d'. revert n. induction t as [|b t IH]; intro n; [reflexivity|].
    change (last (n :: b :: t) d) with (last (b :: t) d). change (last (n :: b :: t) d') with (last (b :: t) d'). apply IH. }
  assert (LI : In (last (n :: t) prev) (n :: t)).
  { clear. revert n. induction t as [|b t IH]; intro n; [left; reflexivity|].
    change (last (n :: b :: t) prev) with (last (b :: t) prev). right. apply IH. }
  assert (LT : last (n :: t) prev = last t n).
  { clear. destruct t as [|b t]; [reflexivity|]. change (last (n :: b :: t) prev) with (last (b :: t) prev).
    revert b. induction t as [|c t IH]; intro b; [reflexivity|].
    change (last (b :: c :: t) prev) with (last (c :: t) prev). change (last (b :: c :: t) n) with (last (c :: t) n). apply IH. }
  split; [|split].
  - rewrite F; [exact C1|left; reflexivity|]. intros E. apply NI. rewrite E. exact LI.
  - rewrite B by (left; reflexivity). exact C2.
  - apply (IH m m' n); auto.
    + intros x X NX. apply F; [right; exact X|]. rewrite LT. exact NX.
    + intros x X. apply B. right. exact X.
Qed.

Lemma chain_path_fwd : forall nodes m prev y, chain m prev nodes -> fwd m (last nodes prev) = y ->
  path (fwd m) prev nodes y.
Proof.
  induction nodes as [|n t IH]; intros m prev y C L; [exact L|]. cbn [chain path] in *.
  destruct C as (C1 & C2 & C3). split; [exact C1|]. apply IH; [exact C3|]. rewrite <- L. f_equal.
  clear. destruct t as [|b t]; [reflexivity|]. change (last (n :: b :: t) prev) with (last (b :: t) prev).
  revert b. induction t as [|c t IH]; intro b; [reflexivity|].
  change (last (b :: c :: t) prev) with (last (c :: t) prev). change (last (b :: c :: t) n) with (last (c :: t) n). apply IH.
Qed.

Lemma path_snoc : forall f l x n y, path f x l n -> f n = y -> path f x (l ++ [n]) y.
Proof.
  induction l as [|a l IH]; intros x n y P E; cbn [path app] in *; [auto|]. destruct P. split; auto.
Qed.

(** Walking back from the last node. *)
Lemma chain_path_back : forall nodes m prev, chain m prev nodes ->
  forall h, back m h = last nodes prev -> path (back m) h (rev nodes) prev.
Proof.
  induction nodes as [|n t IH]; intros m prev C h L; [exact L|]. cbn [chain rev] in *.
  destruct C as (C1 & C2 & C3). apply path_snoc; [|exact C2]. apply (IH m n C3). rewrite L.
  clear. destruct t as [|b t]; [reflexivity|]. change (last (n :: b :: t) prev) with (last (b :: t) prev).
  revert b. induction t as [|c t IH]; intro b; [reflexivity|].
  change (last (b :: c :: t) prev) with (last (c :: t) prev). change (last (b :: c :: t) n) with (last (c :: t) n). apply IH.
Qed.

Lemma last_in : forall (nodes : list N) d, In (last nodes d) (d :: nodes).
Proof.
  induction nodes as [|n t IH]; intro d; [left; reflexivity|].
  destruct t as [|b t]; [right; left; reflexivity|]. change (last (n :: b :: t) d) with (last (b :: t) d).
  destruct (IH d) as [E|E]; [left; exact E|right; right; exact E].
Qed.

Lemma relink_ring : forall head nodes m, NoDup (head :: nodes) -> ring (relink head nodes m) head nodes.
Proof.
  intros head nodes m ND. unfold relink.
  pose proof (relink_loop_last nodes head m) as L. pose proof (relink_loop_chain nodes head m ND) as C.
  destruct (relink_loop head nodes m) as [prev m1]. cbn [fst snd] in *. subst prev.
  set (m2 := set_back head (last nodes head) (set_fwd (last nodes head) head m1)).
  assert (C2 : chain m2 head nodes).
  { apply (chain_ext nodes m1 m2 head); auto.
    - intros x X NX. unfold m2, fwd, set_back, set_fwd.
      apply N.eqb_neq in NX. rewrite NX. destruct (x =? head); reflexivity.
    - intros x X. unfold m2, back, set_back, set_fwd. destruct (x =? head) eqn:E.
      + apply N.eqb_eq in E. subst x. inversion ND; tauto.
      + destruct (x =? last nodes head); reflexivity. }
  assert (F : fwd m2 (last nodes head) = head).
  { unfold m2, fwd, set_back, set_fwd. rewrite N.eqb_refl. destruct (last nodes head =? head); reflexivity. }
  assert (B : back m2 head = last nodes head).
  { unfold m2, back, set_back. rewrite N.eqb_refl. reflexivity. }
  split; [apply chain_path_fwd; assumption|]. apply chain_path_back; assumption.
Qed.

Lemma relink_other : forall head nodes m x, ~ In x (head :: nodes) -> relink head nodes m x = m x.
Proof.
  intros head nodes m x NI. unfold relink. cbn [In] in NI.
  pose proof (relink_loop_last nodes head m) as L.
  pose proof (relink_loop_other nodes head m x ltac:(intros ->; tauto) ltac:(tauto)) as O.
  destruct (relink_loop head nodes m) as [prev m1]. cbn [fst snd] in *. subst prev.
  unfold set_back, set_fwd. pose proof (last_in nodes head) as LI.
  destruct (x =? head) eqn:E; [apply N.eqb_eq in E; subst; tauto|].
  destruct (x =? last nodes head) eqn:E2; [apply N.eqb_eq in E2; rewrite E2 in NI; cbn [In] in LI; tauto|]. exact O.
Qed.

Lemma path_ext : forall l (f g : N -> N) x y, (forall a, In a (x :: l) -> f a = g a) -> path f x l y -> path g x l y.
Proof.
  induction l as [|n l IH]; intros f g x y E P; cbn [path] in *.
  - rewrite <- E by (left; reflexivity). exact P.
  - destruct P as [P1 P2]. split; [rewrite <- E by (left; reflexivity); exact P1|].
    apply (IH f g); [intros a A; apply E; right; exact A|exact P2].
Qed.

Lemma ring_ext : forall m m' head nodes, (forall a, In a (head :: nodes) -> m' a = m a) -> ring m head nodes -> ring m' head nodes.
Proof.
  intros m m' head nodes E [F B]. split.
  - apply (path_ext nodes (fwd m)); [|exact F]. intros a A. unfold fwd. rewrite E by exact A. reflexivity.
  - apply (path_ext (rev nodes) (back m)); [|exact B]. intros a A. unfold back. rewrite E; [reflexivity|].
    destruct A as [->|A]; [left; reflexivity|right; apply in_rev; exact A].
Qed.

(** ** all live addresses are distinct *)
Lemma valid_used : forall h, valid h -> NoDup (used h).
Proof.
  assert (FN : forall (A : Type) (f : A -> N) (p : A -> bool) l x, In x (map f (filter p l)) -> In x (map f l)).
  { intros A f p l x X. apply in_map_iff in X. destruct X as (y & E & Y). apply filter_In in Y. apply in_map_iff. exists y. tauto. }
  assert (FD : forall (A : Type) (f : A -> N) (p : A -> bool) l, NoDup (map f l) -> NoDup (map f (filter p l))).
  { intros A f p l. induction l as [|a l IH]; intro N; [constructor|]. cbn [map] in N. inversion N; subst. cbn [filter].
    destruct (p a); auto. cbn [map]. constructor; auto. intro X. apply FN in X. tauto. }
  assert (AP : forall a b : list N, NoDup (a ++ b) <-> NoDup a /\ NoDup b /\ (forall x, In x a -> ~ In x b)).
  { clear. induction a as [|x a IH]; intro b; cbn [app].
    - split; [intro; repeat split; auto; constructor|tauto].
    - split.
      + intro H. inversion H as [|? ? N D]; subst. apply IH in D. destruct D as (D1 & D2 & D3). rewrite in_app_iff in N.
        repeat split; [constructor; tauto|auto|]. intros y [->|Y]; [tauto|auto].
      + intros (D1 & D2 & D3). inversion D1; subst. constructor; [rewrite in_app_iff|].
        * intros [X|X]; [tauto|]. apply (D3 x); [left; reflexivity|exact X].
        * apply IH. repeat split; auto. intros y Y. apply D3. right. exact Y. }
  intros h V. induction V as [|h a b V IH NE NA NB|h n b s r hd V IH NI|h n e ty tpl f g c V IH NI|h hd V IH|h e V IH];
    unfold used in *.
  - constructor.
  - rewrite live_images_snoc, live_events_snoc, protocol_snoc.
    rewrite !AP in IH. rewrite !AP. destruct IH as (D1 & (D2 & D3 & D4) & D5).
    rewrite in_app_iff in *. repeat split; auto.
    + constructor; [intros [X|[]]; congruence|]. constructor; [intros []|constructor].
    + intros x X [<-|[<-|[]]]; tauto.
    + intros x X. specialize (D5 x X). rewrite in_app_iff in *. cbn [In]. intros [Y|[<-|[<-|[]]]]; tauto.
  - rewrite live_images_snoc, live_events_snoc, protocol_snoc. rewrite map_app. cbn [map i_node].
    rewrite !AP in IH. destruct IH as (D1 & D2 & D3). rewrite <- app_assoc.
    rewrite AP. repeat split; [exact D1| |].
    + rewrite AP. repeat split; [repeat constructor; intros []|rewrite AP; exact D2|].
      intros x [<-|[]]. rewrite !in_app_iff in *. tauto.
    + intros x X. specialize (D3 x X). rewrite !in_app_iff in *. cbn [In]. intros [[<-|[]]|Y]; tauto.
  - destruct f as [f|]; rewrite live_images_snoc, live_events_snoc, protocol_snoc; [|exact IH].
    rewrite map_app. cbn [map v_node].
    rewrite !AP in IH. destruct IH as (D1 & (D2 & D4 & D5) & D3). rewrite !AP. repeat split; auto.
    + repeat constructor. intros [].
    + intros x X [<-|[]]. rewrite !in_app_iff in NI. tauto.
    + intros x X. rewrite in_app_iff in X. destruct X as [X|[<-|[]]]; [auto|]. rewrite !in_app_iff in NI. tauto.
    + intros x X. specialize (D3 x X). rewrite !in_app_iff in *. cbn [In]. intros [[Y|[<-|[]]]|Y]; tauto.
  - rewrite live_images_snoc, live_events_snoc, protocol_snoc. rewrite !AP in *.
    destruct IH as (D1 & D2 & D3). repeat split; try tauto; [apply FD; exact D1|].
    intros x X. apply D3. eapply FN. exact X.
  - rewrite live_images_snoc, live_events_snoc, protocol_snoc. rewrite !AP in *.
    destruct IH as (D1 & (D2 & D4 & D5) & D3). repeat split; auto.
    + intros x X. apply D5. eapply FN. exact X.
    + intros x X Y. apply (D3 x X). rewrite in_app_iff in *. destruct Y as [Y|Y]; [left; eapply FN; exact Y|right; exact Y].
Qed.

(** After any history in which the allocator hands out distinct addresses, once the runtime protocol is installed: the
    image list is a ring through exactly the live images in the order they were added, and likewise the event list. *)
Theorem runtime_lists_published : forall m0 h ih eh, valid h -> protocol h None = Some (ih, eh) ->
  let d := after m0 h in
  r_images d = live_images h /\ r_events d = live_events h /\
  ring (r_links d) ih (map i_node (live_images h)) /\ ring (r_links d) eh (map v_node (live_events h)).
Proof.
  intros m0 h ih eh V P d. destruct (after_contents m0 h) as (I & E & PR). fold d in I, E, PR.
  split; [exact I|]. split; [exact E|].
  assert (AP : forall a b : list N, NoDup (a ++ b) -> NoDup a /\ NoDup b /\ (forall x, In x a -> ~ In x b)).
  { clear. induction a as [|x a IH]; intros b H; cbn [app] in *.
    - repeat split; auto; constructor.
    - inversion H as [|? ? N D]; subst. apply IH in D. destruct D as (D1 & D2 & D3). rewrite in_app_iff in N.
      repeat split; [constructor; tauto|auto|]. intros y [->|Y]; [tauto|auto]. }
  assert (W : forall d0, update_protocol_lists d0 = d -> r_proto d0 = Some (ih, eh) ->
     ring (r_links d) ih (map i_node (live_images h)) /\ ring (r_links d) eh (map v_node (live_events h))).
  { intros d0 U P0. assert (I0 : r_images d0 = live_images h) by (rewrite <- I, <- U; symmetry; apply update_images).
    assert (E0 : r_events d0 = live_events h) by (rewrite <- E, <- U; symmetry; apply update_events).
    pose proof (valid_used h V) as ND. unfold used in ND. rewrite P in ND.
    apply AP in ND. destruct ND as (D1 & D2 & D3). apply AP in D2. destruct D2 as (D4 & D5 & D6).
    assert (NE : ih <> eh).
    { intros ->. inversion D5 as [|? ? X _]. apply X. left. reflexivity. }
    assert (A1 : ~ In ih (map i_node (live_images h))).
    { intro X. apply (D3 ih X). rewrite in_app_iff. right. left. reflexivity. }
    assert (A2 : ~ In eh (map i_node (live_images h))).
    { intro X. apply (D3 eh X). rewrite in_app_iff. right. right. left. reflexivity. }
    assert (A3 : ~ In ih (map v_node (live_events h))).
    { intro X. apply (D6 ih X). left. reflexivity. }
    assert (A4 : ~ In eh (map v_node (live_events h))).
    { intro X. apply (D6 eh X). right. left. reflexivity. }
    rewrite <- U. unfold update_protocol_lists. rewrite P0, I0, E0. cbn [r_links]. split.
    - eapply ring_ext; [|apply relink_ring].
      + intros a A. apply relink_other. cbn [In]. intros [<-|B].
        * destruct A as [A|A]; [congruence|tauto].
        * destruct A as [<-|A]; [tauto|]. apply (D3 a A). rewrite in_app_iff. left. exact B.
      + constructor; assumption.
    - apply relink_ring. constructor; assumption. }
  (* every operation that changes anything ends with an update; a failed AddEvent changes nothing *)
  clear I E PR. revert ih eh P W. subst d.
  induction V as [|h a b V IH NE NA NB|h n b s r hd V IH NI|h n e ty tpl f g c V IH NI|h hd V IH|h e V IH];
    intros ih eh P W.
  - discriminate P.
  - rewrite after_snoc in *. cbn [step] in *. unfold protocol_notify in *. eapply W; [reflexivity|].
    cbn [r_proto]. rewrite protocol_snoc in P. exact P.
  - rewrite after_snoc in *. cbn [step] in *. unfold add_runtime_image in *. eapply W; [reflexivity|].
    cbn [r_proto]. rewrite protocol_snoc in P. destruct (after_contents m0 h) as (_ & _ & ->). exact P.
  - destruct f as [f|].
    + rewrite after_snoc in *. cbn [step] in *. unfold add_runtime_event in *. eapply W; [reflexivity|].
      cbn [r_proto]. rewrite protocol_snoc in P. destruct (after_contents m0 h) as (_ & _ & ->). exact P.
    + rewrite after_snoc in *. cbn [step add_runtime_event] in *. rewrite live_images_snoc, live_events_snoc in *.
      apply IH; [rewrite protocol_snoc in P; exact P|exact W].
  - rewrite after_snoc in *. cbn [step] in *. unfold remove_runtime_image in *. eapply W; [reflexivity|].
    cbn [r_proto]. rewrite protocol_snoc in P. destruct (after_contents m0 h) as (_ & _ & ->). exact P.
  - rewrite after_snoc in *. cbn [step] in *. unfold remove_runtime_event in *. eapply W; [reflexivity|].
    cbn [r_proto]. rewrite protocol_snoc in P. destruct (after_contents m0 h) as (_ & _ & ->). exact P.
Qed.

(** Adding an event fails exactly when it has no notification function, and then changes nothing. *)
Theorem runtime_add_event_fails : forall n e ty tpl f g c d,
  (f = None <-> add_runtime_event n e ty tpl f g c d = Err InvalidParameter) /\
  (f <> None <-> exists d', add_runtime_event n e ty tpl f g c d = Ok d') /\
  (f = None -> step (AddEvent n e ty tpl f g c) d = d).
Proof.
  intros n e ty tpl [f|] g c d; cbn [step add_runtime_event]; repeat split; intros; try congruence; try discriminate; eauto.
  destruct H as [d' H]. discriminate H.
Qed.

(** ** Witnesses *)
Definition ex_history : list op :=
  [AddImage 100 1 2 [] 7; AddEvent 200 50 1 8 (Some 9) (Some 1) None; ProtocolInstalled 10 20;
   AddImage 110 3 4 [5] 8; AddEvent 210 51 513 8 None None None; AddEvent 220 52 513 8 (Some 9) None (Some 3);
   AddImage 120 5 6 [] 7; RemoveImage 7; AddImage 130 7 8 [] 9; RemoveEvent 50].
Example ex_history_valid : valid ex_history.
Proof.
  assert (DEC : forall x l, existsb (N.eqb x) l = false -> ~ In x l).
  { intros x l H I. assert (T : existsb (N.eqb x) l = true).
    { apply existsb_exists. exists x. split; [exact I|apply N.eqb_refl]. }
    congruence. }
  unfold ex_history.
  change (valid (([] ++ [AddImage 100 1 2 [] 7]) ++ [AddEvent 200 50 1 8 (Some 9) (Some 1) None] ++ [ProtocolInstalled 10 20] ++
   [AddImage 110 3 4 [5] 8] ++ [AddEvent 210 51 513 8 None None None] ++ [AddEvent 220 52 513 8 (Some 9) None (Some 3)] ++
   [AddImage 120 5 6 [] 7] ++ [RemoveImage 7] ++ [AddImage 130 7 8 [] 9] ++ [RemoveEvent 50])).
  rewrite !app_assoc.
  apply valid_rm_event. apply valid_image; [|apply DEC; vm_compute; reflexivity].
  apply valid_rm_image. apply valid_image; [|apply DEC; vm_compute; reflexivity].
  apply valid_event; [|apply DEC; vm_compute; reflexivity].
  apply valid_event; [|apply DEC; vm_compute; reflexivity].
  apply valid_image; [|apply DEC; vm_compute; reflexivity].
  apply valid_proto; [|discriminate|apply DEC; vm_compute; reflexivity|apply DEC; vm_compute; reflexivity].
  apply valid_event; [|apply DEC; vm_compute; reflexivity].
  apply valid_image; [|apply DEC; vm_compute; reflexivity]. apply valid_nil.
Qed.
Example ex_history_lists :
  map i_node (live_images ex_history) = [110; 130] /\ map v_node (live_events ex_history) = [220] /\
  let m := r_links (after (fun _ => (0, 0)) ex_history) in
  map (fwd m) [10; 110; 130; 20; 220] = [110; 130; 10; 220; 20] /\ map (back m) [10; 130; 110] = [130; 110; 10].
Proof. repeat apply conj; vm_compute; reflexivity. Qed.

Print Assumptions runtime_lists_published.
Print Assumptions runtime_add_event_fails.
