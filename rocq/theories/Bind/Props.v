(** Driver bindings over any history; what a status code handler sees. *)
From Verif Require Import Base.Prelude Base.Bytes Bind.Spec Bind.Model.
From Coq Require Import Lia ZifyBool ZifyNat ZifyN.
Local Open Scope N_scope.

Lemma remove_times : forall h i db, db_has h i db = true -> times i db = S (times i (db_remove h i db)).
Proof.
  intros h i db. induction db as [|[a b] db IH]; [discriminate|]. unfold db_has. cbn [existsb fst snd times db_remove]. destruct ((a =? h) && (b =? i)) eqn:E.
  - intros _. destruct (b =? i) eqn:B; [reflexivity | lia].
  - cbn [orb times snd]. intros H. rewrite (IH H). destruct (b =? i); reflexivity.
Qed.
Lemma remove_others : forall h i j db, j <> i -> times j (db_remove h i db) = times j db.
Proof.
  intros h i j db N. induction db as [|[a b] db IH]; [reflexivity|]. cbn [db_remove times snd]. destruct ((a =? h) && (b =? i)) eqn:E; [destruct (b =? j) eqn:B; [lia | reflexivity]|]. cbn [times snd]. rewrite IH. reflexivity.
Qed.
(** What holds all the time: the interface is in the database exactly if the owner says so, on its handle; the driver is alive. *)
Definition inv (h i : N) (s : bind_st) : Prop :=
  handle s = h /\ iface s = i /\ destroyed s = 0%nat /\ match own s with Some Uninstalled => times i (db s) = 0%nat | Some Installed => times i (db s) = 1%nat /\ (h <> 0 -> db_has h i (db s) = true) | None => False end.
Lemma inv_call : forall h i s c, inv h i s -> inv h i (call_run s c).
Proof.
  intros h i s c (H1 & H2 & H3 & H4). destruct s as [o hh ii d n]. cbn [own handle iface db destroyed] in *. subst hh ii n. destruct c as [ans fresh | ans]; cbn [call_run].
  - unfold install. cbn [own handle iface db destroyed]. destruct o as [[]|]; cbn [snd]; [| repeat split; try reflexivity; apply H4 | contradiction].
    unfold db_install. destruct (failed ans) eqn:F; rewrite F; cbn [snd]; unfold inv; cbn [own handle iface db destroyed]; [repeat split; exact H4|].
    repeat split. { cbn [times snd]. rewrite N.eqb_refl, H4. reflexivity. } intros N0. unfold db_has. cbn [existsb fst snd]. destruct (h =? 0) eqn:Z; [lia|]. rewrite !N.eqb_refl. reflexivity.
  - unfold uninstall. cbn [own handle iface db destroyed]. destruct o as [[]|]; cbn [snd]; [repeat split; exact H4 | | contradiction]. destruct H4 as [T P]. unfold db_uninstall.
    destruct (h =? 0) eqn:Z; [cbn; repeat split; [exact T | exact P]|]. destruct (db_has h i d) eqn:D; cbn [negb]; [|exfalso; specialize (P ltac:(lia)); congruence].
    destruct (failed ans) eqn:F; rewrite F; cbn [snd]; unfold inv; cbn [own handle iface db destroyed]; [repeat split; [exact T | intros _; exact D]|].
    repeat split. pose proof (remove_times h i d D). lia.
Qed.
Lemma inv_history : forall h i l s, inv h i s -> inv h i (history s l).
Proof. intros h i l. induction l as [|c l IH]; intros s H; [exact H|]. unfold history in *. cbn [fold_left]. apply IH, inv_call, H. Qed.
(** C92: over any history of installing and uninstalling, and any answers of the firmware, the interface is in the database once if the binding says it is
    installed and not at all if it says it is not; the driver is alive all the time; and if the owner is dropped then, the driver is dropped exactly if the
    database does not have it. *)
Theorem c92_lifetime : forall h i d l, times i d = 0%nat -> let s := history (bind_new h i d) l in
  times i (db s) = (if is_installed s then 1 else 0)%nat /\ destroyed s = 0%nat /\ destroyed (drop s) = (if is_installed s then 0 else 1)%nat /\ db (drop s) = db s.
Proof.
  intros h i d l T s. assert (I : inv h i s) by (apply inv_history; repeat split; exact T). destruct I as (H1 & H2 & H3 & H4). unfold is_installed, drop. destruct (own s) as [[]|]; [| |contradiction]; cbn [destroyed db]; repeat split; try assumption; try apply H4. rewrite H3. reflexivity.
Qed.
Lemma calls_others : forall s c j, j <> iface s -> times j (db (call_run s c)) = times j (db s) /\ iface (call_run s c) = iface s.
Proof.
  intros s c j N. destruct c as [ans fresh | ans]; cbn [call_run].
  - unfold install. destruct (own s) as [[]|]; cbn [snd]; [|split; reflexivity|split; reflexivity]. unfold db_install. destruct (failed ans) eqn:F; rewrite F; cbn [snd db iface times]; [split; reflexivity|]. destruct (iface s =? j) eqn:E; [lia|]. split; reflexivity.
  - unfold uninstall. destruct (own s) as [[]|]; cbn [snd]; [split; reflexivity| |split; reflexivity]. unfold db_uninstall. destruct (handle s =? 0); [split; reflexivity|]. destruct (negb _); [split; reflexivity|].
    destruct (failed ans) eqn:F; rewrite F; cbn [snd db iface]; [split; reflexivity|]. split; [apply remove_others; exact N | reflexivity].
Qed.
(** C92: nobody else's interface is touched. *)
Theorem c92_others : forall h i d l j, j <> i -> times j (db (history (bind_new h i d) l)) = times j d.
Proof.
  intros h i d l j N. assert (G : forall l s, iface s = i -> times j (db (history s l)) = times j (db s)); [|exact (G l (bind_new h i d) eq_refl)].
  clear l. intros l. induction l as [|c l IH]; intros s E; [reflexivity|]. unfold history in *. cbn [fold_left]. destruct (calls_others s c j ltac:(congruence)) as [A B]. rewrite IH; [exact A | congruence].
Qed.
(** C92: installing and uninstalling say whether they did it; doing either twice does it once. *)
Theorem c92_results : forall s ans fresh, own s <> None -> (fst (install ans fresh s) = Ok tt <-> is_installed (snd (install ans fresh s)) = true)
  /\ (fst (uninstall ans s) = Ok tt <-> is_installed (snd (uninstall ans s)) = false)
  /\ (is_installed s = true -> install ans fresh s = (Ok tt, s)) /\ (is_installed s = false -> uninstall ans s = (Ok tt, s)).
Proof.
  intros s ans fresh O. unfold install, uninstall, is_installed. destruct s as [o h i d n]. cbn [own handle iface db destroyed] in *. destruct o as [[]|]; [| |contradiction].
  - unfold db_install. destruct (failed ans) eqn:F; rewrite F; cbn [fst snd own]; repeat split; try discriminate; reflexivity.
  - destruct (db_uninstall ans h i d) as [st d']. destruct (failed st); cbn [fst snd own]; repeat split; try discriminate; reflexivity.
Qed.
(** C92: on a handle, what was installed can be uninstalled if the firmware lets it go, whatever happened in between. *)
Theorem c92_uninstall_partial : forall h i d l ans, h <> 0 -> times i d = 0%nat -> failed ans = false -> let s := history (bind_new h i d) l in
  fst (uninstall ans s) = Ok tt /\ times i (db (snd (uninstall ans s))) = 0%nat.
Proof.
  intros h i d l ans H T A s. assert (I : inv h i s) by (apply inv_history; repeat split; exact T). destruct I as (H1 & H2 & H3 & H4). unfold uninstall. destruct (own s) as [[]|]; [split; [reflexivity | exact H4] | | contradiction].
  destruct H4 as [TT P]. unfold db_uninstall. rewrite H1, H2. destruct (h =? 0) eqn:Z; [lia|]. rewrite (P H). cbn [negb]. rewrite A. rewrite A. cbn [fst snd db]. split; [reflexivity|]. pose proof (remove_times h i (db s) (P H)). lia.
Qed.
(** Not so: with a null handle, for which the firmware makes a new one.  Its name is forgotten, and the binding can never be uninstalled. *)
Theorem c92_null_refuted : forall i d fresh ans l, failed ans = false -> let s := history (bind_new 0 i d) (Install ans fresh :: l) in
  is_installed s = true /\ In (fresh, i) (db s) /\ forall ans', fst (uninstall ans' s) = Err INVALID_PARAMETER.
Proof.
  intros i d fresh ans l A s. assert (G : forall l s, own s = Some Installed -> handle s = 0 -> In (fresh, i) (db s) -> let s' := history s l in own s' = Some Installed /\ handle s' = 0 /\ In (fresh, i) (db s')).
  { clear. intros l. induction l as [|c l IH]; intros s O H D; [repeat split; assumption|]. unfold history in *. cbn [fold_left]. assert (E : call_run s c = s \/ exists x, call_run s c = St (own s) (handle s) (iface s) x (destroyed s) /\ x = db s).
    { destruct c as [a f | a]; cbn [call_run]; [unfold install; rewrite O; left; reflexivity|]. right. exists (db s). unfold uninstall. rewrite O, H. unfold db_uninstall. split; reflexivity. }
    destruct E as [-> | (x & -> & ->)]; apply IH; assumption. }
  assert (S0 : call_run (bind_new 0 i d) (Install ans fresh) = St (Some Installed) 0 i ((fresh, i) :: d) 0).
  { cbn [call_run]. unfold install, bind_new. cbn [own handle iface db destroyed]. unfold db_install. rewrite A. rewrite A. reflexivity. }
  destruct (G l (call_run (bind_new 0 i d) (Install ans fresh))) as (G1 & G2 & G3); [rewrite S0; reflexivity | rewrite S0; reflexivity | rewrite S0; left; reflexivity|].
  fold s in G1, G2, G3. change (history (call_run (bind_new 0 i d) (Install ans fresh)) l) with s in *. split; [unfold is_installed; rewrite G1; reflexivity|]. split; [exact G3|]. intros ans'. unfold uninstall. rewrite G1, G2. reflexivity.
Qed.
(** C92: the firmware sees the driver's verdict: success exactly if the driver says yes, an error otherwise, if the errors it gives are such. *)
Theorem c92_supported : forall r, (forall s, r = Err s -> failed s = true) -> r <> Panic -> exists s, supported_status r = Ok s /\ (s = 0 <-> r = Ok true) /\ (failed s = true <-> r <> Ok true).
Proof.
  intros r E P. destruct r as [[]|e|]; [| | |contradiction].
  - exists 0. repeat split; try discriminate. intros H. contradiction.
  - exists (2 ^ 63 + 3). repeat split; try discriminate.
  - exists e. specialize (E e eq_refl). repeat split; try discriminate; [intros -> | intros _; exact E]. discriminate.
Qed.
(** C92: start and stop alike. *)
Theorem c92_start : forall r, (forall s, r = Err s -> failed s = true) -> r <> Panic -> exists s, start_status r = Ok s /\ (s = 0 <-> r = Ok tt) /\ (failed s = true <-> r <> Ok tt).
Proof.
  intros r E P. destruct r as [[]|e|]; [| |contradiction].
  - exists 0. repeat split; try discriminate. intros H. contradiction.
  - exists e. specialize (E e eq_refl). repeat split; try discriminate; [intros -> | intros _; exact E]. discriminate.
Qed.

(** ** Status codes *)

(** C92, for data of less than 64 KiB: a handler that goes by the header finds the data, all of it, and its type. *)
Theorem c92_data_partial : forall guid data, length guid = 16%nat -> N.of_nat (length data) < 2 ^ 16 -> let b := code_data guid data in
  let hs := le_val (firstn 2 b) in let size := le_val (firstn 2 (skipn 2 b)) in
  firstn (N.to_nat size) (skipn (N.to_nat hs) b) = data /\ length b = N.to_nat (hs + size) /\ firstn 16 (skipn 4 b) = guid.
Proof.
  intros guid data G D b hs size. assert (B : b = le_bytes 2 20 ++ le_bytes 2 (N.of_nat (length data)) ++ guid ++ data) by (unfold b, code_data; rewrite N.mod_small by exact D; reflexivity).
  assert (L2 : forall x, length (le_bytes 2 x) = 2%nat) by (intros; apply le_bytes_length).
  assert (HS : hs = 20) by reflexivity. assert (SZ : size = N.of_nat (length data)).
  { unfold size. rewrite B, skipn_app, L2, Nat.sub_diag, skipn_all2 by (rewrite L2; lia). cbn [app skipn]. rewrite firstn_app, L2, Nat.sub_diag, firstn_O, app_nil_r, firstn_all2 by (rewrite L2; lia). apply le_val_bytes. exact D. }
  rewrite HS, SZ, B. change (N.to_nat 20) with 20%nat. rewrite Nnat.Nat2N.id. split; [|split].
  - rewrite !app_assoc, skipn_app. rewrite skipn_all2 by (rewrite !app_length, !L2, G; lia). rewrite !app_length, !L2, G. cbn [Nat.add Nat.sub skipn app]. apply firstn_all.
  - rewrite !app_length, !L2, G. lia.
  - rewrite app_assoc, skipn_app, skipn_all2 by (rewrite app_length, !L2; lia). rewrite app_length, !L2. cbn [Nat.add Nat.sub skipn app]. rewrite firstn_app, G, Nat.sub_diag, firstn_O, app_nil_r. apply firstn_all2. lia.
Qed.
(** Not so: larger data.  Its size is reduced modulo 64 KiB. *)
Theorem c92_data_refuted : forall guid data, length guid = 16%nat -> N.of_nat (length data) = 2 ^ 16 -> le_val (firstn 2 (skipn 2 (code_data guid data))) = 0.
Proof. intros guid data G D. unfold code_data. rewrite D. reflexivity. Qed.
(** C92: the handler's errors are reported, and nothing else is an error. *)
Theorem c92_report : forall f data, report f data = let s := f (match data with Some (g, d) => Some (code_data g d) | None => None end) in if 2 ^ 63 <=? s then Err s else Ok tt.
Proof. reflexivity. Qed.

(** ** Cases *)

Example demo_bind : let s := history (bind_new 7 100 [(7, 50)]) [Install 0 9; Install 0 9; Uninstall (2 ^ 63 + 15); Uninstall 0; Install 0 9] in is_installed s = true /\ db s = [(7, 100); (7, 50)] /\ destroyed (drop s) = 0%nat.
Proof. vm_compute. repeat split. Qed.
Example demo_code : code_data (repeat 0xAA 16) [1; 2; 3] = [20; 0; 3; 0] ++ repeat 0xAA 16 ++ [1; 2; 3].
Proof. reflexivity. Qed.

Print Assumptions c92_lifetime.
Print Assumptions c92_others.
Print Assumptions c92_results.
Print Assumptions c92_uninstall_partial.
Print Assumptions c92_null_refuted.
Print Assumptions c92_supported.
Print Assumptions c92_start.
Print Assumptions c92_data_partial.
Print Assumptions c92_data_refuted.
Print Assumptions c92_report.
