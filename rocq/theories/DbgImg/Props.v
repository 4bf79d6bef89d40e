(** C72: the table of loaded images that a debugger reads. *)
From Verif Require Import Base.Prelude DbgImg.Model DbgImg.Spec DbgImg.Proofs.
From Coq Require Import Lia ZifyBool ZifyNat ZifyN Permutation.
Local Open Scope N_scope.

Lemma nodup_filter_map : forall (p : info -> bool) l, NoDup (map d_handle l) -> NoDup (map d_handle (filter p l)).
Proof.
  intros p. induction l as [|x l IH]; intros ND; [constructor|]. inversion ND as [|? ? NI ND']; subst. cbn [filter].
  destruct (p x); [|apply IH; exact ND']. cbn [map]. constructor; [|apply IH; exact ND'].
  intros I. apply NI. apply in_map_iff in I. destruct I as [y [E I]]. apply filter_In in I. rewrite <- E. apply in_map. tauto.
Qed.
Lemma filter_perm : forall (p : info -> bool) a b, Permutation a b -> Permutation (filter p a) (filter p b).
Proof.
  intros p a b P. induction P; cbn [filter].
  - constructor.
  - destruct (p x); [constructor|]; assumption.
  - destruct (p x), (p y); try apply Permutation_refl. constructor.
  - etransitivity; eassumption.
Qed.

Lemma step_ok : forall dbg s l lv e, inv s l -> Permutation l lv -> NoDup (map d_handle lv) -> in_progress s = false ->
  handles_ok lv [e] ->
  exists g l', steps dbg s e = Ok g /\ inv (last g s) l' /\ Permutation l' (live1 lv e) /\ NoDup (map d_handle (live1 lv e))
    /\ in_progress (last g s) = false /\ (e <> Acknowledge -> modified (last g s) = true)
    /\ forall x, In x g -> (in_progress x = true /\ modified x = modified s) \/ x = last g s.
Proof.
  intros dbg s l lv e I P ND NP [H _]. pose proof (Permutation_length P) as PL. destruct e as [ty loaded handle|handle|]; cbn [steps live1].
  - destruct H as [NI LT]. destruct (new_entry_ok dbg s l ty loaded handle I) as (g & G & I' & A & M & SH); [lia|].
    exists g, (l ++ [Info ty loaded handle]). split; [exact G|]. split; [exact I'|]. split; [apply Permutation_app_tail; exact P|].
    split; [|split; [exact A | split; [intros _; exact M | exact SH]]].
    rewrite map_app. cbn [map d_handle]. apply (Permutation_NoDup (l := handle :: map d_handle lv)); [apply Permutation_cons_append | constructor; assumption].
  - destruct (remove_entry_ok s l handle I) as (g & l' & G & I' & P' & A & M & SH).
    { apply (Permutation_NoDup (l := map d_handle lv)); [apply Permutation_map; symmetry; exact P | exact ND]. }
    exists g, l'. split; [exact G|]. split; [exact I'|]. split; [etransitivity; [exact P' | apply filter_perm; exact P]|].
    split; [apply nodup_filter_map; exact ND | split; [exact A | split; [intros _; exact M | exact SH]]].
  - eexists. exists l. split; [reflexivity|]. cbn [last]. split; [apply inv_status; exact I|]. split; [exact P|]. split; [exact ND|].
    split; [|split; [intros X; congruence | intros x [<-|[]]; right; reflexivity]].
    unfold in_progress, with_status in *. cbn [d_status]. rewrite N.ldiff_spec, NP. reflexivity.
Qed.

Lemma run_inv : forall dbg h s l lv, inv s l -> Permutation l lv -> NoDup (map d_handle lv) -> in_progress s = false -> handles_ok lv h ->
  exists s' l', run dbg s h = Ok s' /\ inv s' l' /\ Permutation l' (fold_left live1 h lv) /\ NoDup (map d_handle (fold_left live1 h lv)) /\ in_progress s' = false.
Proof.
  intros dbg. induction h as [|e h IH]; intros s l lv I P ND NP H.
  - exists s, l. cbn. tauto.
  - destruct H as [H1 H2]. destruct (step_ok dbg s l lv e I P ND NP) as (g & l' & G & I' & P' & ND' & NP' & _). { split; [exact H1 | exact Logic.I]. }
    cbn [run fold_left]. rewrite G. apply (IH _ l'); assumption.
Qed.
Lemma handles_app : forall h1 h2 l, handles_ok l (h1 ++ h2) <-> handles_ok l h1 /\ handles_ok (fold_left live1 h1 l) h2.
Proof. induction h1 as [|e h1 IH]; intros h2 l; cbn [app handles_ok fold_left]; [tauto | rewrite IH; tauto]. Qed.

(** After any history the update bit is clear and the table shows the loaded images, each once, in live memory; no other memory is held. *)
Theorem c72_table : forall dbg h, handles_ok [] h ->
  exists s l, run dbg initialize h = Ok s /\ shows s l /\ Permutation l (live h) /\ nothing_else s /\ in_progress s = false.
Proof.
  intros dbg h H. destruct (run_inv dbg h initialize [] [] inv_init) as (s & l & R & I & P & _ & NP);
    [constructor | constructor | reflexivity | exact H |].
  exists s, l. destruct (inv_shows s l I) as [A B]. repeat split; try assumption; apply B.
Qed.

(** A debugger that stops the machine after any write of an operation sees either that an update is in progress, with its own acknowledgement
    bit as it was, or a finished table; a finished registration or removal reports a modification. *)
Theorem c72_stopped : forall dbg h e, handles_ok [] (h ++ [e]) ->
  exists s g, run dbg initialize h = Ok s /\ steps dbg s e = Ok g
    /\ (e <> Acknowledge -> modified (last g s) = true)
    /\ forall x, In x g ->
         (in_progress x = true /\ modified x = modified s)
         \/ (x = last g s /\ in_progress x = false /\ exists l, shows x l /\ Permutation l (live (h ++ [e]))).
Proof.
  intros dbg h e H. apply handles_app in H. destruct H as [H1 H2].
  destruct (run_inv dbg h initialize [] [] inv_init) as (s & l & R & I & P & ND & NP); [constructor | constructor | reflexivity | exact H1 |].
  destruct (step_ok dbg s l (fold_left live1 h []) e I P ND NP H2) as (g & l' & G & I' & P' & _ & NP' & M & SH).
  exists s, g. split; [exact R|]. split; [exact G|]. split; [exact M|].
  intros x X. destruct (SH x X) as [A|A]; [left; exact A|]. right. rewrite A. split; [reflexivity|]. split; [exact NP'|].
  exists l'. split; [apply inv_shows; exact I'|]. unfold live. rewrite fold_left_app. exact P'.
Qed.

Lemma remove_unknown : forall s l handle, inv s l -> (forall i, In i l -> d_handle i <> handle) ->
  exists g, remove_entry s handle = Ok g /\ modified (last g s) = true /\ shows (last g s) l
    /\ d_boxes (last g s) = d_boxes s /\ d_arrays (last g s) = d_arrays s /\ d_size (last g s) = d_size s.
Proof.
  intros s l handle I NH. pose proof I as [(ps & rest & E & ES & EA & F & ND & R & B) EP AR FR].
  unfold remove_entry. set (s1 := begin_update s). change (d_arrays s1 (d_slice s1)) with (d_arrays s (d_slice s)). rewrite E.
  change (d_size s1) with (d_size s). change (d_boxes s1) with (d_boxes s). rewrite ES.
  assert (T : (N.of_nat (length (ps ++ rest)) <? N.of_nat (length ps)) = false) by (rewrite app_length; lia). rewrite T.
  rewrite Nat2N.id, firstn_app, Nat.sub_diag, firstn_all, firstn_O, app_nil_r.
  destruct (search_ok (d_boxes s) handle ps l 0 F) as [[SR _]|(pre & p & post & l1 & i & l2 & _ & _ & LS & _ & HH)].
  - rewrite SR. cbn [bind]. exists [s1; end_update s1]. cbn [last]. split; [reflexivity|]. split; [apply bits_end|].
    split; [apply inv_shows; apply inv_status, inv_status; exact I|]. repeat split; exact ES.
  - exfalso. apply (NH i); [rewrite LS; apply in_or_app; right; left; reflexivity | exact HH].
Qed.

(** Removing an image that is not in the table reports a modification although nothing changes (307-314). *)
Theorem c72_modified_refuted : forall dbg h handle, handles_ok [] h -> ~ In handle (map d_handle (live h)) ->
  exists s g, run dbg initialize h = Ok s /\ remove_entry s handle = Ok g /\ modified (last g s) = true
    /\ d_boxes (last g s) = d_boxes s /\ d_arrays (last g s) = d_arrays s /\ d_size (last g s) = d_size s.
Proof.
  intros dbg h handle H NI. destruct (run_inv dbg h initialize [] [] inv_init) as (s & l & R & I & P & _); [constructor | constructor | reflexivity | exact H |].
  destruct (remove_unknown s l handle I) as (g & G & M & _ & E1 & E2 & E3).
  { intros i X E. apply NI. rewrite <- E. apply in_map. apply (Permutation_in _ P). exact X. }
  exists s, g. tauto.
Qed.

(** ** Concrete cases *)

Definition handles_of (r : res efi_error dstate) : list (option N) :=
  match r with
  | Ok s => match d_arrays s (d_ptr s) with
            | Some a => map (fun p => match d_boxes s p with Some i => Some (d_handle i) | None => None end) (firstn (N.to_nat (d_size s)) a)
            | None => []
            end
  | _ => []
  end.
Definition demo_history : list event := [Add 1 100 11; Add 1 200 12; Add 1 300 13; Remove 11; Acknowledge; Remove 99; Add 1 400 11].

Example c72_demo_ok : handles_ok [] demo_history.
Proof. cbn. repeat split; try reflexivity; intros X; repeat (destruct X as [X|X]; [discriminate|]); destruct X. Qed.
Example c72_demo_shows : handles_of (run true initialize demo_history) = [Some 13; Some 12; Some 11].
Proof. vm_compute. reflexivity. Qed.

(** The order of registration is not kept: the last entry takes the place of the removed one. *)
Theorem c72_order_refuted : exists h, handles_ok [] h /\ handles_of (run true initialize h) = [Some 13; Some 12] /\ map d_handle (live h) = [12; 13].
Proof.
  exists [Add 1 100 11; Add 1 200 12; Add 1 300 13; Remove 11]. split; [|split; vm_compute; reflexivity].
  cbn. repeat split; try reflexivity; intros X; repeat (destruct X as [X|X]; [discriminate|]); destruct X.
Qed.

(** The table grows past its first 128 entries, and all are there. *)
Definition many : list event := map (fun k => Add 1 0 (N.of_nat k)) (seq 1 130).
Example c72_demo_grow : handles_of (run true initialize many) = map (fun k => Some (N.of_nat k)) (seq 1 130).
Proof. vm_compute. reflexivity. Qed.
(** While it grows the header points for a moment at memory that is no longer the table's: a debugger must heed the update bit. *)
Example c72_demo_dangling :
  match run true initialize (firstn 128 many) with
  | Ok s => match new_entry true s 1 0 129 with
            | Ok (_ :: x :: _) => (in_progress x, match d_arrays x (d_ptr x) with None => true | Some _ => false end)
            | _ => (false, false)
            end
  | _ => (false, false)
  end = (true, true).
Proof. vm_compute. reflexivity. Qed.

Print Assumptions c72_table.
Print Assumptions c72_stopped.
Print Assumptions c72_modified_refuted.
Print Assumptions c72_order_refuted.
