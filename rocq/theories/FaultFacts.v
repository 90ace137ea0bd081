(* A run with failures either equals the run without, or fails *)
From Coq Require Import String List Arith Bool Lia Init.Byte.
From Verif Require Import Base Element Hash Sizing FS Sched Store VecStore DiskStore MmapStore LevelCache ProofModel Tree Faults.
Import ListNotations.

Section Sim.
  Variable P : failure -> Prop.          (* the failures that may be seen *)

  (* results of calls without effect *)
  Definition RSim {X} (r' r : res X) : Prop := r' = r \/ exists e, P e /\ r' = failed e.

  Definition lost {X} (r' r : res X) : Prop :=
    (exists e, P e /\ r' = failed e) \/ (is_ok r' = false /\ r' = r).
  Definition Sim {St X} (m' m : SM St X) : Prop :=
    forall st, m' st = m st \/ lost (fst (m' st)) (fst (m st)).

  Lemma RSim_refl {X} (r : res X) : RSim r r. Proof. left. reflexivity. Qed.
  Lemma RSim_bind {X Y} (m' m : res X) (k' k : X -> res Y) :
    RSim m' m -> (forall x, RSim (k' x) (k x)) -> RSim (rbind m' k') (rbind m k).
  Proof.
    intros [-> | (e & He & ->)] Hk.
    - destruct m; cbn [rbind]; try (left; reflexivity). apply Hk.
    - right. exists e. split; [exact He|]. destruct e; reflexivity.
  Qed.
  Lemma RSim_if {X} (c : bool) (a' a b' b : res X) :
    RSim a' a -> RSim b' b -> RSim (if c then a' else b') (if c then a else b).
  Proof. destruct c; auto. Qed.
  Lemma RSim_rmap {X Y} (f' f : X -> res Y) l : (forall x, RSim (f' x) (f x)) -> RSim (rmap f' l) (rmap f l).
  Proof.
    intros H. induction l; cbn [rmap]; [apply RSim_refl|]. apply RSim_bind; auto. intro. apply RSim_bind; auto.
    intro. apply RSim_refl.
  Qed.

  Lemma Sim_refl {St X} (m : SM St X) : Sim m m. Proof. left. reflexivity. Qed.
  Lemma Sim_bind {St X Y} (m' m : SM St X) (k' k : X -> SM St Y) :
    Sim m' m -> (forall x, Sim (k' x) (k x)) -> Sim (sbind m' k') (sbind m k).
  Proof.
    intros Hm Hk st. unfold sbind. destruct (Hm st) as [H | H].
    - rewrite H. destruct (m st) as [[x|e|e|] s]; try (left; reflexivity). apply Hk.
    - destruct (m' st) as [r' s'], (m st) as [r s]. cbn [fst] in H. right.
      destruct H as [(e & He & ->) | (H1 & ->)].
      + left. exists e. split; [exact He|]. destruct e; reflexivity.
      + right. destruct r; cbn in H1; try discriminate; split; reflexivity.
  Qed.
  Lemma Sim_if {St X} (c : bool) (a' a b' b : SM St X) :
    Sim a' a -> Sim b' b -> Sim (if c then a' else b') (if c then a else b).
  Proof. destruct c; auto. Qed.
  Lemma Sim_slift {St X} (r' r : res X) : RSim r' r -> Sim (@slift St X r') (slift r).
  Proof. intros [-> | H] st; [left; reflexivity|]. right. left. exact H. Qed.
  Lemma Sim_sreads {St X} (f' f : St -> res X) : (forall st, RSim (f' st) (f st)) -> Sim (sreads f') (sreads f).
  Proof. intros H st. unfold sreads. destruct (H st) as [-> | H']; [left; reflexivity|]. right. left. exact H'. Qed.
  Lemma Sim_fun {St X} (f' f : St -> res X) : (forall st, RSim (f' st) (f st)) ->
    Sim (fun st => (f' st, st)) (fun st => (f st, st)).
  Proof. exact (Sim_sreads f' f). Qed.

  Lemma Sim_with_store {T X} (s : T) (m' m : SM (T * fs) X) : Sim m' m -> Sim (with_store s m') (with_store s m).
  Proof.
    intros H f. unfold with_store. destruct (H (s, f)) as [E | E]; [left; rewrite E; reflexivity|]. right.
    destruct (m' (s, f)) as [r' [s' f']], (m (s, f)) as [r [s0 f0]]. cbn [fst] in E.
    destruct E as [(e & He & ->) | (H1 & ->)].
    - left. exists e. split; [exact He|]. destruct e; reflexivity.
    - right. destruct r; cbn in H1; try discriminate; split; reflexivity.
  Qed.

  Lemma Sim_sexpect {St X} (m' m : SM St X) msg : (forall e, P (FErr e) -> P (FPanic msg)) ->
    Sim m' m -> Sim (sexpect m' msg) (sexpect m msg).
  Proof.
    intros HP H st. unfold sexpect. destruct (H st) as [E | E]; [left; rewrite E; reflexivity|]. right.
    destruct (m' st) as [r' s'], (m st) as [r s]. cbn [fst] in *.
    destruct E as [(e & He & ->) | (H1 & ->)].
    - left. destruct e as [e|e]; cbn [failed expect]; [exists (FPanic msg)|exists (FPanic e)]; eauto.
    - right. destruct r; cbn in H1 |- *; try discriminate; split; reflexivity.
  Qed.

  Lemma Sim_smap {St X Y} (f' f : X -> SM St Y) l : (forall x, Sim (f' x) (f x)) -> Sim (smap f' l) (smap f l).
  Proof.
    intros H. induction l; cbn [smap]; [apply Sim_refl|]. apply Sim_bind; auto. intro. apply Sim_bind; auto.
    intro. apply Sim_refl.
  Qed.

  Section Tasks.
    Context {St D : Type}.
    Variable n : nat.
    Variables rd' rd : nat -> St -> res D.
    Variables wr' wr : nat -> D -> SM St unit.
    Hypothesis Hrd : forall k st, RSim (rd' k st) (rd k st).
    Hypothesis Hwr : forall k d, Sim (wr' k d) (wr k d).

    Lemma step_some (r : nat -> St -> res D) w k ts x st :
      exists ts1 st1, task_step n r w k ts (Some x) st = (ts1, Some x, st1).
    Proof.
      unfold task_step. destruct (k <? n); [|eauto].
      destruct (ts k); [destruct (r k st)|destruct (w k d st) as [[] ?]|]; cbn [first_failure]; eauto.
    Qed.
    Lemma sched_some (r : nat -> St -> res D) w s : forall ts x st,
      exists ts1 st1, run_sched n r w s ts (Some x) st = (ts1, Some x, st1).
    Proof.
      induction s as [|k s IH]; intros; cbn [run_sched]; [eauto|].
      destruct (step_some r w k ts x st) as (ts1 & st1 & ->). apply IH.
    Qed.

    Lemma step_sim k ts st :
      task_step n rd' wr' k ts None st = task_step n rd wr k ts None st \/
      exists ts1 x st1, task_step n rd' wr' k ts None st = (ts1, Some x, st1) /\ is_ok x = false /\
        ((exists e, P e /\ x = failed e) \/
         exists ts2 st2, task_step n rd wr k ts None st = (ts2, Some x, st2)).
    Proof.
      unfold task_step. destruct (k <? n); [|left; reflexivity]. destruct (ts k) as [|d|]; [| |left; reflexivity].
      - destruct (Hrd k st) as [-> | (e & He & ->)]; [left; reflexivity|]. right.
        destruct e as [m|m]; cbn [failed first_failure]; do 3 eexists; (split; [reflexivity|]); (split; [reflexivity|]); left;
          [exists (FErr m)|exists (FPanic m)]; auto.
      - destruct (Hwr k d st) as [-> | H]; [left; reflexivity|]. right.
        destruct (wr' k d st) as [r' s'], (wr k d st) as [r s]. cbn [fst] in H.
        destruct H as [(e & He & ->) | (H1 & ->)].
        + destruct e as [m|m]; cbn [failed first_failure]; do 3 eexists; (split; [reflexivity|]); (split; [reflexivity|]); left;
            [exists (FErr m)|exists (FPanic m)]; auto.
        + destruct r; cbn in H1; try discriminate; cbn [first_failure]; do 3 eexists; (split; [reflexivity|]);
            (split; [reflexivity|]); right; eauto.
    Qed.

    Lemma step_fail (r : nat -> St -> res D) w k ts st ts1 x st1 :
      task_step n r w k ts None st = (ts1, Some x, st1) -> is_ok x = false.
    Proof.
      unfold task_step. destruct (k <? n); [|intros H; inversion H].
      destruct (ts k); [destruct (r k st)|destruct (w k d st) as [[] ?]|]; cbn [first_failure];
        intros H; inversion H; reflexivity.
    Qed.

    Lemma sched_sim s : forall ts st,
      run_sched n rd' wr' s ts None st = run_sched n rd wr s ts None st \/
      exists ts1 x st1, run_sched n rd' wr' s ts None st = (ts1, Some x, st1) /\ is_ok x = false /\
        ((exists e, P e /\ x = failed e) \/
         exists ts2 st2, run_sched n rd wr s ts None st = (ts2, Some x, st2)).
    Proof.
      induction s as [|k s IH]; intros; cbn [run_sched]; [left; reflexivity|].
      destruct (step_sim k ts st) as [H | (ts1 & x & st1 & H & Hx & HP)].
      - rewrite H. destruct (task_step n rd wr k ts None st) as [[ts1 [x|]] st1] eqn:Hs; [|apply IH].
        right. destruct (sched_some rd' wr' s ts1 x st1) as (u & v & ->).
        destruct (sched_some rd wr s ts1 x st1) as (u' & v' & ->).
        do 3 eexists. split; [reflexivity|]. split; [exact (step_fail _ _ _ _ _ _ _ _ Hs)|]. right. eauto.
      - right. rewrite H. destruct (sched_some rd' wr' s ts1 x st1) as (u & v & ->).
        do 3 eexists. split; [reflexivity|]. split; [exact Hx|]. destruct HP as [HP | (ts2 & st2 & HP)]; [left; exact HP|].
        right. rewrite HP. destruct (sched_some rd wr s ts2 x st2) as (u' & v' & ->). eauto.
    Qed.

    Lemma Sim_run_tasks s : Sim (run_tasks n rd' wr' s) (run_tasks n rd wr s).
    Proof.
      intros st. unfold run_tasks. destruct (sched_sim s (fun _ => TNew) st) as [H | (ts1 & x & st1 & H & Hx & HP)].
      - rewrite H. destruct (run_sched n rd wr s (fun _ => TNew) None st) as [[ts1 [x|]] st1]; [left; reflexivity|].
        destruct (sched_sim (completion n) ts1 st1) as [H2 | (ts2 & x & st2 & H2 & Hx & HP)]; [left; rewrite H2; reflexivity|].
        right. rewrite H2. cbn [fst]. destruct HP as [HP | (ts3 & st3 & HP)]; [left; exact HP|]. right. rewrite HP. auto.
      - right. rewrite H. cbn [fst]. destruct HP as [HP | (ts3 & st3 & HP)]; [left; exact HP|]. right. rewrite HP. auto.
    Qed.
  End Tasks.

  Section Bytes.
    Context {St : Type}.
    Variable n most : nat.
    Variables start' start : nat -> St -> res nat.
    Variable rd : nat -> nat -> St -> res byte.
    Variable comp : nat -> list byte -> res (list byte).
    Variable wr : nat -> nat -> byte -> SM St unit.
    Hypothesis Hst : forall k st, RSim (start' k st) (start k st).

    Lemma bstep_some (sr : nat -> St -> res nat) k j ts x st :
      exists ts1 st1, byte_step n sr rd comp wr k j ts (Some x) st = (ts1, Some x, st1).
    Proof.
      unfold byte_step. destruct (k <? n); [|eauto].
      destruct (ts k) as [|got|o|]; [destruct (sr k st)| | |]; cbn [go_on first_failure]; eauto.
      - destruct (collect got) as [l|]; [destruct (comp k l); cbn [go_on first_failure]; eauto|].
        destruct (nth_error got j) as [[]|]; eauto. destruct (rd k j st); cbn [go_on first_failure]; eauto.
      - destruct (nth_error o j) as [[y []]|]; eauto. destruct (wr k j y st) as [[] ?]; cbn [go_on first_failure]; eauto.
    Qed.
    Lemma bsched_some (sr : nat -> St -> res nat) s : forall ts x st,
      exists ts1 st1, run_byte_sched n sr rd comp wr s ts (Some x) st = (ts1, Some x, st1).
    Proof.
      induction s as [|[k j] s IH]; intros; cbn [run_byte_sched]; [eauto|].
      destruct (bstep_some sr k j ts x st) as (ts1 & st1 & ->). apply IH.
    Qed.
    Lemma bstep_fail (sr : nat -> St -> res nat) k j ts st ts1 x st1 :
      byte_step n sr rd comp wr k j ts None st = (ts1, Some x, st1) -> is_ok x = false.
    Proof.
      unfold byte_step. destruct (k <? n); [|intros H; inversion H].
      destruct (ts k) as [|got|o|]; [destruct (sr k st)| | |]; cbn [go_on first_failure]; try (intros H; inversion H; reflexivity).
      - destruct (collect got) as [l|]; [destruct (comp k l); cbn [go_on first_failure]; intros H; inversion H; reflexivity|].
        destruct (nth_error got j) as [[]|]; try (intros H; inversion H; reflexivity).
        destruct (rd k j st); cbn [go_on first_failure]; intros H; inversion H; reflexivity.
      - destruct (nth_error o j) as [[y []]|]; try (intros H; inversion H; reflexivity).
        destruct (wr k j y st) as [[] ?]; cbn [go_on first_failure]; intros H; inversion H; reflexivity.
    Qed.
    Lemma bstep_sim k j ts st :
      byte_step n start' rd comp wr k j ts None st = byte_step n start rd comp wr k j ts None st \/
      exists ts1 x st1, byte_step n start' rd comp wr k j ts None st = (ts1, Some x, st1) /\ is_ok x = false /\
        exists e, P e /\ x = failed e.
    Proof.
      unfold byte_step. destruct (k <? n); [|left; reflexivity]. destruct (ts k) as [|got|o|]; try (left; reflexivity).
      destruct (Hst k st) as [-> | (e & He & ->)]; [left; reflexivity|]. right.
      destruct e as [m|m]; cbn [failed go_on first_failure]; do 3 eexists; (split; [reflexivity|]); (split; [reflexivity|]);
        [exists (FErr m)|exists (FPanic m)]; auto.
    Qed.
    Lemma bsched_sim s : forall ts st,
      run_byte_sched n start' rd comp wr s ts None st = run_byte_sched n start rd comp wr s ts None st \/
      exists ts1 x st1, run_byte_sched n start' rd comp wr s ts None st = (ts1, Some x, st1) /\ is_ok x = false /\
        ((exists e, P e /\ x = failed e) \/
         exists ts2 st2, run_byte_sched n start rd comp wr s ts None st = (ts2, Some x, st2)).
    Proof.
      induction s as [|[k j] s IH]; intros; cbn [run_byte_sched]; [left; reflexivity|].
      destruct (bstep_sim k j ts st) as [H | (ts1 & x & st1 & H & Hx & HP)].
      - rewrite H. destruct (byte_step n start rd comp wr k j ts None st) as [[ts1 [x|]] st1] eqn:Hs; [|apply IH].
        right. destruct (bsched_some start' s ts1 x st1) as (u & v & ->).
        destruct (bsched_some start s ts1 x st1) as (u' & v' & ->).
        do 3 eexists. split; [reflexivity|]. split; [exact (bstep_fail _ _ _ _ _ _ _ _ Hs)|]. right. eauto.
      - right. rewrite H. destruct (bsched_some start' s ts1 x st1) as (u & v & ->).
        do 3 eexists. split; [reflexivity|]. split; [exact Hx|]. left; exact HP.
    Qed.
    Lemma Sim_run_bytes s : Sim (run_bytes n start' rd comp wr most s) (run_bytes n start rd comp wr most s).
    Proof.
      intros st. unfold run_bytes. destruct (bsched_sim s (fun _ => BNew) st) as [H | (ts1 & x & st1 & H & Hx & HP)].
      - rewrite H. destruct (run_byte_sched n start rd comp wr s (fun _ => BNew) None st) as [[ts1 [x|]] st1]; [left; reflexivity|].
        destruct (bsched_sim (byte_completion n most) ts1 st1) as [H2 | (ts2 & x & st2 & H2 & Hx & HP)]; [left; rewrite H2; reflexivity|].
        right. rewrite H2. cbn [fst]. destruct HP as [HP | (ts3 & st3 & HP)]; [left; exact HP|]. right. rewrite HP. auto.
      - right. rewrite H. cbn [fst]. destruct HP as [HP | (ts3 & st3 & HP)]; [left; exact HP|]. right. rewrite HP. auto.
    Qed.
  End Bytes.

  (* every failure of the oracle is one of P *)
  Definition faults_in {E T} (fl : faults E T) : Prop :=
    (forall o f e f', flt_create fl o f = Some (e, f') -> P e) /\
    (forall o st e st', flt_write fl o st = Some (e, st') -> P e) /\
    (forall o st e, flt_read fl o st = Some e -> P e).

  Section Inj.
    Context {E T : Type} (fl : faults E T).
    Hypothesis HP : faults_in fl.

    Lemma Sim_create {X} o (m : SM fs X) : Sim (inj_create fl o m) m.
    Proof.
      intros f. unfold inj_create. destruct (flt_create fl o f) as [[e f']|] eqn:H; [|left; reflexivity].
      right. left. exists e. split; [exact (proj1 HP _ _ _ _ H)|reflexivity].
    Qed.
    Lemma Sim_write {X} o (m : SM (T * fs) X) : Sim (inj_write fl o m) m.
    Proof.
      intros st. unfold inj_write. destruct (flt_write fl o st) as [[e st']|] eqn:H; [|left; reflexivity].
      right. left. exists e. split; [exact (proj1 (proj2 HP) _ _ _ _ H)|reflexivity].
    Qed.
    Lemma RSim_read {X} o st (r : res X) : RSim (inj_read fl o st r) r.
    Proof.
      unfold inj_read. destruct (flt_read fl o st) as [e|] eqn:H; [|left; reflexivity].
      right. exists e. split; [exact (proj2 (proj2 HP) _ _ _ H)|reflexivity].
    Qed.
  End Inj.
End Sim.

(* what a build method with failures has to satisfy *)
Definition build_in (P : failure -> Prop) {E} (SO : StoreOps E)
    (bld : env -> AlgOps E -> nat -> nat -> nat -> option StoreConfig -> SM (st_t SO * fs) E) : Prop :=
  forall en A b leafs rc c, Sim P (bld en A b leafs rc c) (st_build SO en A b leafs rc c).

Ltac sim :=
  repeat match goal with
  | |- forall _, _ => intro
  | |- RSim _ ?x ?x => apply RSim_refl
  | |- Sim _ ?x ?x => apply Sim_refl
  | H : context [Sim _ _ _] |- Sim _ _ _ => solve [apply H]
  | |- Sim _ (sbind _ _) (sbind _ _) => apply Sim_bind
  | |- Sim _ (if _ then _ else _) (if _ then _ else _) => apply Sim_if
  | |- Sim _ (let '(_, _) := ?p in _) _ => destruct p
  | |- Sim _ (slift _) (slift _) => apply Sim_slift
  | |- Sim _ (sreads _) (sreads _) => apply Sim_sreads
  | |- Sim _ (with_store _ _) (with_store _ _) => apply Sim_with_store
  | |- Sim _ (run_tasks _ _ _ _) (run_tasks _ _ _ _) => apply Sim_run_tasks
  | |- Sim _ (run_bytes _ _ _ _ _ _ _) (run_bytes _ _ _ _ _ _ _) => apply Sim_run_bytes
  | |- Sim _ (smap _ _) (smap _ _) => apply Sim_smap
  | |- Sim _ (inj_create _ _ _) _ => apply Sim_create; assumption
  | |- Sim _ (inj_write _ _ _) _ => apply Sim_write; assumption
  | |- RSim _ (inj_read _ _ _ _) _ => apply RSim_read; assumption
  | |- RSim _ (rbind _ _) (rbind _ _) => apply RSim_bind
  | |- RSim _ (if _ then _ else _) (if _ then _ else _) => apply RSim_if
  | |- RSim _ (let '(_, _) := ?p in _) _ => destruct p
  | |- Sim _ (sret _) (sret _) => apply Sim_refl
  | |- Sim _ sget sget => apply Sim_refl
  | HP : faults_in _ _ |- Sim _ (st_copy_from_slice _ _ _) _ => exact (Sim_write _ _ HP _ _)
  | HP : faults_in _ _ |- Sim _ (st_sync _) _ => exact (Sim_write _ _ HP _ _)
  | HP : faults_in _ _ |- Sim _ (st_new _ _) _ => exact (Sim_create _ _ HP _ _)
  | HP : faults_in _ _ |- Sim _ (st_new_with_config _ _ _ _) _ => exact (Sim_create _ _ HP _ _)
  | HP : faults_in _ _ |- Sim _ (st_new_from_slice _ _ _) _ => exact (Sim_create _ _ HP _ _)
  | HP : faults_in _ _ |- Sim _ (st_new_from_slice_with_config _ _ _ _ _) _ => exact (Sim_create _ _ HP _ _)
  | HP : faults_in _ _ |- RSim _ (st_read_at _ _ _) _ => exact (RSim_read _ _ HP _ _ _)
  | HP : faults_in _ _ |- RSim _ (st_read_range _ _ _ _) _ => exact (RSim_read _ _ HP _ _ _)
  | HP : faults_in _ _ |- RSim _ (st_read_into _ _ _ _) _ => exact (RSim_read _ _ HP _ _ _)
  | HP : faults_in _ _ |- RSim _ (st_read_range_into _ _ _ _ _) _ => exact (RSim_read _ _ HP _ _ _)
  | H : build_in _ _ _ |- Sim _ (st_build _ _ _ _ _ _ _) _ => apply H
  | |- RSim _ (checked_sub _ _) _ => apply RSim_refl
  | |- RSim _ (ensure _ _) _ => apply RSim_refl
  | |- RSim _ (rnth _ _) _ => apply RSim_refl
  | |- RSim _ (from_trees _ _ _ _) _ => apply RSim_refl
  | |- RSim _ (from_sub_trees _ _ _ _) _ => apply RSim_refl
  | |- RSim _ (other_roots _ _ _ _) _ => apply RSim_refl
  | |- RSim _ (Ok _) _ => apply RSim_refl
  | |- RSim _ (Panic _) _ => apply RSim_refl
  end.

(* the build methods *)
Section Builds.
  Variable P : failure -> Prop.
  Context {E : Type} (EO : ElementOps E) (A : AlgOps E) (b : nat).

  Section Default.
    Context {T : Type} (len : T -> nat).
    Variables ra' ra : T * fs -> nat -> res E.
    Variables rr' rr : T * fs -> nat -> nat -> res (list E).
    Variables wa' wa : E -> nat -> SM (T * fs) unit.
    Variables cp' cp : list byte -> nat -> SM (T * fs) unit.
    Hypothesis Hra : forall st i, RSim P (ra' st i) (ra st i).
    Hypothesis Hrr : forall st s e, RSim P (rr' st s e) (rr st s e).
    Hypothesis Hwa : forall x i, Sim P (wa' x i) (wa x i).
    Hypothesis Hcp : forall d i, Sim P (cp' d i) (cp d i).

    Lemma last_sim : Sim P (default_last len ra') (default_last len ra).
    Proof. unfold default_last. apply Sim_fun. sim. apply Hra. Qed.
    Lemma write_nodes_sim l : forall i, Sim P (write_nodes wa' l i) (write_nodes wa l i).
    Proof. induction l; intro; cbn [write_nodes]; sim. Qed.
    Lemma small_loop_sim fuel : forall sh lv w ix,
      Sim P (small_tree_loop len rr' wa' A b fuel sh lv w ix) (small_tree_loop len rr wa A b fuel sh lv w ix).
    Proof.
      induction fuel; intros; cbn [small_tree_loop]; [apply Sim_refl|]. sim.
      - apply Hrr.
      - apply write_nodes_sim.
    Qed.
    Lemma chunk_sim chunk w lv rs k st :
      RSim P (chunk_task EO A b chunk rr' w lv rs k st) (chunk_task EO A b chunk rr w lv rs k st).
    Proof. unfold chunk_task. cbv zeta. sim. apply Hrr. Qed.
    Lemma layer_sim chunk s w lv rs ws :
      Sim P (process_layer EO rr' cp' A b chunk s w lv rs ws) (process_layer EO rr cp A b chunk s w lv rs ws).
    Proof. unfold process_layer. sim. apply chunk_sim. Qed.
    Lemma mmap_layer_sim (chk' chk : T * fs -> nat -> nat -> res unit) file chunk s w lv rs ws :
      (forall st i j, RSim P (chk' st i j) (chk st i j)) ->
      Sim P (mmap_process_layer EO A b chunk file chk' s w lv rs ws) (mmap_process_layer EO A b chunk file chk s w lv rs ws).
    Proof. intros Hchk. unfold mmap_process_layer, mmap_layer_by. cbv zeta. sim. unfold map_start. sim. apply Hchk. Qed.
    Lemma build_loop_sim chunk sched fuel : forall sh lv w ix,
      Sim P (build_loop EO len rr' cp' A b chunk sched fuel sh lv w ix) (build_loop EO len rr cp A b chunk sched fuel sh lv w ix).
    Proof. induction fuel; intros; cbn [build_loop]; [apply Sim_refl|]. sim. apply layer_sim. Qed.
    Lemma default_build_sim chunk fuel small sched leafs rc :
      Sim P (default_build_fuel EO len ra' rr' wa' cp' A b chunk fuel small sched leafs rc)
            (default_build_fuel EO len ra rr wa cp A b chunk fuel small sched leafs rc).
    Proof.
      unfold default_build_fuel, build_small_tree_fuel. sim.
      - apply small_loop_sim.
      - apply last_sim.
      - apply build_loop_sim.
      - apply last_sim.
    Qed.
  End Default.
End Builds.

Section Stores.
  Variable P : failure -> Prop.
  Context {E : Type} (EO : ElementOps E) (A : AlgOps E) (en : env) (b : nat).

  Lemma vec_build_in fl : faults_in P fl -> build_in P (vec_store EO) (faulty_default_build EO (vec_store EO) fl).
  Proof. intros HP en0 A0 b0 leafs rc c. unfold faulty_default_build. apply default_build_sim; sim. Qed.
  Lemma mmap_build_in fl : faults_in P fl -> build_in P (mmap_store_ops EO) (faulty_default_build EO (mmap_store_ops EO) fl).
  Proof. intros HP en0 A0 b0 leafs rc c. unfold faulty_default_build. apply default_build_sim; sim. Qed.

  Lemma disk_layer_sim fl lv w rs ws : faults_in P fl ->
    Sim P (faulty_disk_layer EO fl en A b w lv rs ws) (disk_process_layer EO en A b (env_bytes en lv) w lv rs ws).
  Proof.
    intros HP st. unfold faulty_disk_layer, disk_process_layer.
    assert (H : Sim P (let! _ := inj_write fl (W_map lv) (sret tt) in
      mmap_process_layer EO A b (p_chunk (env_params en)) ds_file
        (fun st s e => inj_read fl (R_range s e) st (disk_check EO st (s * e_byte_len EO) (e * e_byte_len EO))) (env_bytes en lv) w lv rs ws)
     (let! _ := sret tt in mmap_process_layer EO A b (p_chunk (env_params en)) ds_file
        (fun st s e => disk_check EO st (s * e_byte_len EO) (e * e_byte_len EO)) (env_bytes en lv) w lv rs ws)).
    { sim. apply mmap_layer_sim. sim. }
    exact (H st).
  Qed.
  Lemma disk_loop_sim fl fuel : faults_in P fl -> forall sh lv w ix,
    Sim P (disk_build_loop_with (faulty_disk_layer EO fl en A b) fuel sh lv w ix)
          (disk_build_loop EO en A b fuel sh lv w ix).
  Proof.
    intros HP. induction fuel; intros; cbn [disk_build_loop_with disk_build_loop]; [apply Sim_refl|]. sim.
    apply disk_layer_sim. exact HP.
  Qed.
  Lemma disk_build_sim fl leafs rc c : faults_in P fl ->
    Sim P (faulty_disk_build EO fl en A b leafs rc c) (disk_build_fuel EO en A b (S leafs) leafs rc c).
  Proof.
    intros HP. unfold faulty_disk_build, disk_build_fuel. sim.
    - apply disk_loop_sim. exact HP.
    - apply last_sim. sim.
  Qed.

  Lemma lc_layer_sim fl lv w rs ws : faults_in P fl ->
    Sim P (faulty_lc_layer EO fl en A b w lv rs ws) (lc_process_layer EO en A b (env_bytes en lv) w lv rs ws).
  Proof.
    intros HP st. unfold faulty_lc_layer, lc_process_layer.
    assert (H : Sim P (let! _ := inj_write fl (W_map lv) (sret tt) in
      mmap_process_layer EO A b (p_chunk (env_params en)) lc_file
        (fun st s e => inj_read fl (R_range_internal s e) st (lc_check EO st (s * e_byte_len EO) (e * e_byte_len EO))) (env_bytes en lv) w lv rs ws)
     (let! _ := sret tt in mmap_process_layer EO A b (p_chunk (env_params en)) lc_file
        (fun st s e => lc_check EO st (s * e_byte_len EO) (e * e_byte_len EO)) (env_bytes en lv) w lv rs ws)).
    { sim. apply mmap_layer_sim. sim. }
    exact (H st).
  Qed.
  Lemma lc_loop_sim fl cis c fuel : faults_in P fl -> forall sh lv w ix,
    Sim P (lc_build_loop_with (faulty_lc_layer EO fl en A b) (faulty_lc_truncate EO fl en) fuel sh cis c lv w ix)
          (lc_build_loop EO en A b fuel sh cis c lv w ix).
  Proof.
    intros HP. induction fuel; intros; cbn [lc_build_loop_with lc_build_loop]; [apply Sim_refl|]. sim.
    - apply lc_layer_sim. exact HP.
    - unfold faulty_lc_truncate. sim.
  Qed.
  Lemma lc_build_sim fl leafs rc c : faults_in P fl ->
    Sim P (faulty_lc_build EO fl en A b leafs rc c) (lc_build_fuel EO en A b (S leafs) leafs rc c).
  Proof.
    intros HP. unfold faulty_lc_build, lc_build_fuel. sim. apply lc_loop_sim. exact HP.
  Qed.
End Stores.

Section Trees.
  Variable P : failure -> Prop.
  Context {E : Type} (EO : ElementOps E) (SO : StoreOps E) (fl : faults E (st_t SO)).
  Variable bld : env -> AlgOps E -> nat -> nat -> nat -> option StoreConfig -> SM (st_t SO * fs) E.
  Hypothesis HP : faults_in P fl.
  Hypothesis Hbld : build_in P SO bld.
  Variables (A : AlgOps E) (en : env) (b sub_a top_a : nat).
  Let FO := faulty SO fl bld.
  Let T := st_t SO.

  Lemma pop_loop_sim block items : forall a buf,
    Sim P (populate_loop EO FO A block items a buf : SM (T * fs) (list byte)) (populate_loop EO SO A block items a buf).
  Proof. induction items; intros; cbn [populate_loop]; sim. Qed.
  Lemma pop_sim items : Sim P (populate_data EO FO A en items : SM (T * fs) unit) (populate_data EO SO A en items).
  Proof. unfold populate_data. sim. apply pop_loop_sim. Qed.
  Lemma pop_par_sim items : Sim P (populate_data_par EO FO A en items : SM (T * fs) unit) (populate_data_par EO SO A en items).
  Proof. unfold populate_data_par. cbv zeta. sim. Qed.
  Lemma store_last_sim s f : RSim P (store_last FO s f) (store_last SO s f).
  Proof. unfold store_last. sim. Qed.
  Lemma bld_sim leafs rc c : Sim P (st_build FO en A b leafs rc c : SM (T * fs) E) (st_build SO en A b leafs rc c).
  Proof. apply Hbld. Qed.

  Lemma iter_sim hint items :
    Sim P (try_from_iter EO FO A en b hint items : SM fs (mtree T E)) (try_from_iter EO SO A en b hint items).
  Proof. unfold try_from_iter. sim. apply pop_sim. Qed.
  Lemma iter_wc_sim hint items c : (forall e, P (FErr e) -> P (FPanic "failed to populate data")) ->
    Sim P (try_from_iter_with_config EO FO A en b hint items c : SM fs (mtree T E))
          (try_from_iter_with_config EO SO A en b hint items c).
  Proof.
    intros Hx. unfold try_from_iter_with_config. sim.
    - apply store_last_sim.
    - apply Sim_sexpect; [exact Hx|]. apply pop_sim.
  Qed.
  Lemma par_sim items : (forall e, P (FErr e) -> P (FPanic "failed to create data store")) ->
    Sim P (from_par_iter EO FO A en b items : SM fs (mtree T E)) (from_par_iter EO SO A en b items).
  Proof.
    intros Hx. unfold from_par_iter. cbv zeta. sim.
    - apply Sim_sexpect; [exact Hx|]. sim.
    - apply pop_par_sim.
  Qed.
  Lemma par_wc_sim items c :
    Sim P (from_par_iter_with_config EO FO A en b items c : SM fs (mtree T E)) (from_par_iter_with_config EO SO A en b items c).
  Proof.
    unfold from_par_iter_with_config. cbv zeta. sim.
    - apply store_last_sim.
    - apply pop_par_sim.
  Qed.
  Lemma bytes_sim d : Sim P (from_byte_slice EO FO A en b d : SM fs (mtree T E)) (from_byte_slice EO SO A en b d).
  Proof. unfold from_byte_slice. cbv zeta. sim. Qed.
  Lemma bytes_wc_sim d c :
    Sim P (from_byte_slice_with_config EO FO A en b d c : SM fs (mtree T E)) (from_byte_slice_with_config EO SO A en b d c).
  Proof. unfold from_byte_slice_with_config. cbv zeta. sim. Qed.

  Lemma data_store_sim s1 t1 data leafs :
    Sim P (from_data_store FO b s1 t1 data leafs : SM fs (mtree T E)) (from_data_store SO b s1 t1 data leafs).
  Proof. unfold from_data_store. sim. apply store_last_sim. Qed.
  Lemma tree_slice_sim s1 t1 d leafs :
    Sim P (from_tree_slice EO FO b s1 t1 d leafs : SM fs (mtree T E)) (from_tree_slice EO SO b s1 t1 d leafs).
  Proof. unfold from_tree_slice. sim. apply store_last_sim. Qed.
  Lemma tree_slice_wc_sim s1 t1 d leafs c :
    Sim P (from_tree_slice_with_config EO FO b s1 t1 d leafs c : SM fs (mtree T E)) (from_tree_slice_with_config EO SO b s1 t1 d leafs c).
  Proof. unfold from_tree_slice_with_config. sim. apply store_last_sim. Qed.
  Lemma slices_sim s1 ds leafs :
    Sim P (from_slices EO FO A b s1 ds leafs : SM fs (mtree T E)) (from_slices EO SO A b s1 ds leafs).
  Proof. unfold from_slices. sim. apply tree_slice_sim. Qed.
  Lemma slices_wc_sim s1 ds leafs cs :
    Sim P (from_slices_with_configs EO FO A b s1 ds leafs cs : SM fs (mtree T E)) (from_slices_with_configs EO SO A b s1 ds leafs cs).
  Proof. unfold from_slices_with_configs. sim. apply tree_slice_wc_sim. Qed.
  Lemma stores_sim s1 leafs ss :
    Sim P (from_stores FO A b s1 leafs ss : SM fs (mtree T E)) (from_stores SO A b s1 leafs ss).
  Proof. unfold from_stores. sim. apply data_store_sim. Qed.
  Lemma store_configs_sim s1 leafs cs :
    Sim P (from_store_configs FO A b s1 leafs cs : SM fs (mtree T E)) (from_store_configs SO A b s1 leafs cs).
  Proof. unfold from_store_configs. sim. apply data_store_sim. Qed.
  Lemma sub_configs_sim s1 t1 leafs cs :
    Sim P (from_sub_tree_store_configs FO A b s1 t1 leafs cs : SM fs (mtree T E)) (from_sub_tree_store_configs SO A b s1 t1 leafs cs).
  Proof. unfold from_sub_tree_store_configs. cbv zeta. sim. apply store_configs_sim. Qed.

  (* reading and proving *)
  Lemma read_n_sim f fuel : forall s1 t1 t i, RSim P (mt_read_at_n FO fuel s1 t1 t f i) (mt_read_at_n SO fuel s1 t1 t f i).
  Proof.
    induction fuel; intros; cbn [mt_read_at_n]; [apply RSim_refl|]. cbv zeta.
    destruct t as [[s|l|l] lfs lnf rcs rt]; cbn [mt_data mt_leafs mt_row_count mt_root mt_len_field]; sim; apply IHfuel.
  Qed.
  Lemma read_sim t f i : RSim P (mt_read_at FO sub_a top_a t f i) (mt_read_at SO sub_a top_a t f i).
  Proof. apply read_n_sim. Qed.
  Lemma range_sim t f s e : RSim P (mt_read_range FO t f s e) (mt_read_range SO t f s e).
  Proof. unfold mt_read_range, mt_store. destruct t as [[?|?|?] ? ? ? ?]; cbn [mt_data]; sim. Qed.
  Lemma range_into_sim t f s e buf : RSim P (mt_read_range_into FO t f s e buf) (mt_read_range_into SO t f s e buf).
  Proof. unfold mt_read_range_into, mt_store. destruct t as [[?|?|?] ? ? ? ?]; cbn [mt_data]; sim. Qed.
  Lemma into_sim t f i buf : RSim P (mt_read_into FO t f i buf) (mt_read_into SO t f i buf).
  Proof. unfold mt_read_into, mt_store. destruct t as [[?|?|?] ? ? ? ?]; cbn [mt_data]; sim. Qed.

  Lemma siblings_sim rd' rd j ks : (forall k, RSim P (rd' k) (rd k)) ->
    RSim P (@read_siblings E rd' j ks) (read_siblings rd j ks).
  Proof. intros H. induction ks; cbn [read_siblings]; sim; auto. Qed.
  Lemma proof_loop_sim rd' rd sh len fuel : (forall l k, RSim P (rd' l k) (rd l k)) -> forall base w j lv,
    RSim P (@proof_loop E b fuel rd' sh len base w j lv) (proof_loop b fuel rd sh len base w j lv).
  Proof.
    intros H. induction fuel; intros; cbn [proof_loop]; sim; auto. apply siblings_sim. auto.
  Qed.
  Lemma proof_base_sim s1 t1 t s f i : RSim P (gen_proof_base FO b s1 t1 t s f i) (gen_proof_base SO b s1 t1 t s f i).
  Proof. unfold gen_proof_base. cbv zeta. destruct t as [dat lfs lnf rcs rt]; cbn [mt_data mt_leafs mt_row_count mt_root mt_len_field]. sim. apply proof_loop_sim. sim. Qed.
  Lemma proof_n_sim f fuel : forall s1 t1 t i, RSim P (gen_proof_n FO b fuel s1 t1 t f i) (gen_proof_n SO b fuel s1 t1 t f i).
  Proof.
    induction fuel; intros; cbn [gen_proof_n]; [apply RSim_refl|].
    destruct t as [[s|l|l] lfs lnf rcs rt]; cbn [mt_data mt_leafs mt_row_count mt_root mt_len_field]; [apply proof_base_sim| |]; unfold gen_sub_tree_proof, mt_base_trees, mt_sub_trees; cbn [mt_data mt_leafs mt_row_count mt_root]; cbv zeta; sim; apply IHfuel.
  Qed.
  Lemma proof_sim t f i : RSim P (gen_proof FO b sub_a top_a t f i) (gen_proof SO b sub_a top_a t f i).
  Proof. apply proof_n_sim. Qed.

  Lemma partial_loop_sim rd' rd rdp sh len dw cis fuel : (forall k, RSim P (rd' k) (rd k)) -> forall base w j pb sw ss,
    RSim P (@partial_loop E b fuel rd' rdp sh len dw cis base w j pb sw ss) (partial_loop b fuel rd rdp sh len dw cis base w j pb sw ss).
  Proof.
    intros H. induction fuel; intros; cbn [partial_loop]; sim; auto. apply siblings_sim. intro. cbv zeta. sim. auto.
  Qed.
  Lemma cached_base_sim s1 t1 t s f i r :
    RSim P (gen_cached_proof_base EO FO A en b s1 t1 t s f i r) (gen_cached_proof_base EO SO A en b s1 t1 t s f i r).
  Proof.
    unfold gen_cached_proof_base. cbv zeta. destruct t as [dat lfs lnf rcs rt]; cbn [mt_data mt_leafs mt_row_count mt_root mt_len_field]. sim.
    unfold gen_proof_with_partial_tree. cbv zeta. cbn [mt_data mt_leafs mt_row_count mt_root mt_len_field]. sim. apply partial_loop_sim. sim.
  Qed.
  Lemma cached_n_sim f r fuel : forall s1 t1 t i,
    RSim P (gen_cached_proof_n EO FO A en b fuel s1 t1 t f i r) (gen_cached_proof_n EO SO A en b fuel s1 t1 t f i r).
  Proof.
    induction fuel; intros; cbn [gen_cached_proof_n]; [apply RSim_refl|].
    destruct t as [[s|l|l] lfs lnf rcs rt]; cbn [mt_data mt_leafs mt_row_count mt_root mt_len_field]; [apply cached_base_sim| |]; unfold gen_cached_compound_proof, mt_base_trees, mt_sub_trees;
      cbn [mt_data mt_leafs mt_row_count mt_root]; cbv zeta; sim; apply IHfuel.
  Qed.
  Lemma cached_sim t f i r :
    RSim P (gen_cached_proof EO FO A en b sub_a top_a t f i r) (gen_cached_proof EO SO A en b sub_a top_a t f i r).
  Proof. apply cached_n_sim. Qed.
End Trees.
