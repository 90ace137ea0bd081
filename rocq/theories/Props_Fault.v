(* C65, C66: input/output failures.  The failing stores are in Faults.v, facts in FaultFacts.v. *)
From Coq Require Import String List Arith NArith Bool Lia Init.Byte ZifyBool ZifyNat.
From Verif Require Import Base Element Hash Sizing FS Sched Store VecStore DiskStore MmapStore LevelCache ProofModel Tree Faults ListFacts Spec SpecFacts SizingFacts StoreLaws StoreSpec VecFacts DiskFacts MmapFacts PopFacts TreeFacts ProofSpec ProofFacts TreeProofs TreeObs Builders FaultFacts Cases Props_Build Props_Proof.
Import ListNotations.

(* the four stores, any of whose methods may fail *)
Inductive failing {E} (EO : ElementOps E) : forall SO : StoreOps E, faults E (st_t SO) ->
  (env -> AlgOps E -> nat -> nat -> nat -> option StoreConfig -> SM (st_t SO * fs) E) -> Prop :=
| failing_vec fl : failing EO (vec_store EO) fl (faulty_default_build EO (vec_store EO) fl)
| failing_mmap fl : failing EO (mmap_store_ops EO) fl (faulty_default_build EO (mmap_store_ops EO) fl)
| failing_disk fl : failing EO (disk_store EO) fl (faulty_disk_build EO fl)
| failing_lc fl : failing EO (lc_store EO) fl (faulty_lc_build EO fl).

(* the constructors of MerkleTree that go through a store *)
Inductive call (E T : Type) : Type :=
| K_iter (hint : option nat) (items : list (res E))
| K_iter_config (hint : option nat) (items : list (res E)) (c : StoreConfig)
| K_data (items : list hval)
| K_data_config (items : list hval) (c : StoreConfig)
| K_par (items : list E)
| K_par_config (items : list E) (c : StoreConfig)
| K_bytes (d : list byte)
| K_bytes_config (d : list byte) (c : StoreConfig)
| K_data_store (sub_ top : nat) (s : T) (leafs : nat)
| K_tree_slice (sub_ top : nat) (d : list byte) (leafs : nat)
| K_tree_slice_config (sub_ top : nat) (d : list byte) (leafs : nat) (c : StoreConfig)
| K_slices (sub_ : nat) (ds : list (list byte)) (leafs : nat)
| K_slices_configs (sub_ : nat) (ds : list (list byte)) (leafs : nat) (cs : list StoreConfig)
| K_stores (sub_ leafs : nat) (ss : list T)
| K_store_configs (sub_ leafs : nat) (cs : list StoreConfig)
| K_sub_store_configs (sub_ top leafs : nat) (cs : list StoreConfig).

Definition run {E} (EO : ElementOps E) (SO : StoreOps E) (A : AlgOps E) (en : env) (b : nat) (k : call E (st_t SO))
  : SM fs (mtree (st_t SO) E) :=
  match k with
  | K_iter _ _ h l => try_from_iter EO SO A en b h l
  | K_iter_config _ _ h l c => try_from_iter_with_config EO SO A en b h l c
  | K_data _ _ l => from_data EO SO A en b l
  | K_data_config _ _ l c => from_data_with_config EO SO A en b l c
  | K_par _ _ l => from_par_iter EO SO A en b l
  | K_par_config _ _ l c => from_par_iter_with_config EO SO A en b l c
  | K_bytes _ _ d => from_byte_slice EO SO A en b d
  | K_bytes_config _ _ d c => from_byte_slice_with_config EO SO A en b d c
  | K_data_store _ _ s t d n => from_data_store SO b s t d n
  | K_tree_slice _ _ s t d n => from_tree_slice EO SO b s t d n
  | K_tree_slice_config _ _ s t d n c => from_tree_slice_with_config EO SO b s t d n c
  | K_slices _ _ s ds n => from_slices EO SO A b s ds n
  | K_slices_configs _ _ s ds n cs => from_slices_with_configs EO SO A b s ds n cs
  | K_stores _ _ s n ss => from_stores SO A b s n ss
  | K_store_configs _ _ s n cs => from_store_configs SO A b s n cs
  | K_sub_store_configs _ _ s t n cs => from_sub_tree_store_configs SO A b s t n cs
  end.

(* the two kinds of constructor that call .expect on a Result (merkle.rs 1630, 1801-1802) *)
Definition expects {E T} (k : call E T) : bool :=
  match k with
  | K_iter_config _ _ _ _ _ | K_data_config _ _ _ _ | K_par _ _ _ => true
  | _ => false
  end.

Lemma failing_build {E} (EO : ElementOps E) SO fl bld P : failing EO SO fl bld -> faults_in P fl -> build_in P SO bld.
Proof.
  intros [] HP.
  - apply vec_build_in. exact HP.
  - apply mmap_build_in. exact HP.
  - intros en A b leafs rc c. apply disk_build_sim. exact HP.
  - intros en A b leafs rc c. apply lc_build_sim. exact HP.
Qed.

Lemma run_sim {E} (EO : ElementOps E) SO fl bld P A en b (k : call E (st_t SO)) : failing EO SO fl bld -> faults_in P fl ->
  (expects k = true -> forall e m, P (FErr e) -> P (FPanic m)) -> Sim P (run EO (faulty SO fl bld) A en b k : SM fs (mtree (st_t SO) E)) (run EO SO A en b k).
Proof.
  intros HF HP Hx. pose proof (failing_build EO SO fl bld P HF HP) as HB.
  destruct k; cbn [run] in *; cbn [expects] in Hx.
  - apply (iter_sim P EO SO fl bld HP HB).
  - apply (iter_wc_sim P EO SO fl bld HP HB). eauto.
  - apply (iter_sim P EO SO fl bld HP HB).
  - apply (iter_wc_sim P EO SO fl bld HP HB). eauto.
  - apply (par_sim P EO SO fl bld HP HB). eauto.
  - apply (par_wc_sim P EO SO fl bld HP HB).
  - apply (bytes_sim P EO SO fl bld HP HB).
  - apply (bytes_wc_sim P EO SO fl bld HP HB).
  - apply (data_store_sim P SO fl bld HP).
  - apply (tree_slice_sim P EO SO fl bld HP).
  - apply (tree_slice_wc_sim P EO SO fl bld HP).
  - apply (slices_sim P EO SO fl bld HP).
  - apply (slices_wc_sim P EO SO fl bld HP).
  - apply (stores_sim P SO fl bld HP).
  - apply (store_configs_sim P SO fl bld HP).
  - apply (sub_configs_sim P SO fl bld HP).
Qed.

Lemma faults_any {E T} (fl : faults E T) : faults_in (fun _ => True) fl.
Proof. repeat split. Qed.

Lemma RSim_ok {X} (P : failure -> Prop) (r' r : res X) x : RSim P r' r -> r' = Ok x -> r = Ok x.
Proof. intros [-> | (e & _ & ->)] H; [exact H|]. destruct e; discriminate H. Qed.
Lemma RSim_err {X} (P : failure -> Prop) (r' r : res X) : (forall e, P e -> exists m, e = FErr m) -> RSim P r' r -> r' = r \/ exists m, r' = Err m.
Proof. intros HP [-> | (e & He & ->)]; [left; reflexivity|]. right. destruct (HP e He) as [m ->]. exists m. reflexivity. Qed.

(* a constructor that returns a tree met no failure: it did exactly what it does
   when nothing can fail *)
Theorem C65_construct : forall E (EO : ElementOps E) SO fl bld A en b (k : call E (st_t SO)) f (t : mtree (st_t SO) E) f',
  failing EO SO fl bld ->
  run EO (faulty SO fl bld) A en b k f = (Ok t, f') -> run EO SO A en b k f = (Ok t, f').
Proof.
  intros E EO SO fl bld A en b k f t f' HF HR.
  destruct (run_sim EO SO fl bld (fun _ => True) A en b k HF (faults_any fl) (fun _ _ _ _ => I) f) as [H | [(e & _ & H) | (H & _)]].
  - rewrite <- H. exact HR.
  - exfalso. rewrite HR in H. destruct e; discriminate H.
  - exfalso. rewrite HR in H. discriminate H.
Qed.

(* and when the oracle never fires, the result is the one of the plain store *)
Theorem C65_no_faults : forall E (EO : ElementOps E) SO bld A en b (k : call E (st_t SO)) f,
  failing EO SO no_faults bld ->
  fst (run EO (faulty SO no_faults bld) A en b k f) = fst (run EO SO A en b k f).
Proof.
  intros E EO SO bld A en b k f HF.
  assert (HP : faults_in (fun _ => False) (@no_faults E (st_t SO))) by (repeat split; discriminate).
  destruct (run_sim EO SO no_faults bld _ A en b k HF HP (fun _ _ _ H => H) f) as [H | [(e & [] & _) | (_ & H)]]; [|exact H].
  rewrite H. reflexivity.
Qed.

(* so all that is known of built trees holds of a tree built on a store that may fail *)
Theorem C65_tree : forall E (EO : ElementOps E) A SO np fl bld en b leaves f (t : mtree (st_t SO) E) f',
  setting EO A SO np en b -> failing EO SO fl bld ->
  builder EO (faulty SO fl bld) A en b leaves f (Ok t, f') ->
  builder EO SO A en b leaves f (Ok t, f') /\
  exists d, 1 <= d /\ List.length leaves = b ^ d /\ MRoot (h_node A) b d leaves (mt_root t).
Proof.
  intros E EO A SO np fl bld en b leaves f t f' HS HF HB.
  assert (H : builder EO SO A en b leaves f (Ok t, f')).
  { enough (HG : forall r, builder EO (faulty SO fl bld) A en b leaves f r -> r = (Ok t, f') -> builder EO SO A en b leaves f (Ok t, f'))
      by exact (HG _ HB eq_refl).
    clear HB. intros r HB Hr. destruct HB as [xs f|xs c f Hc|xs f Hp|xs c f Hp Hc|xs f|xs c f Hc|els f|els c f Hc].
    - rewrite <- (C65_construct E EO SO fl bld A en b (K_iter _ _ (Some (List.length xs)) (map Ok xs)) f t f' HF Hr). exact (B_new EO SO A en b xs f).
    - rewrite <- (C65_construct E EO SO fl bld A en b (K_iter_config _ _ (Some (List.length xs)) (map Ok xs) c) f t f' HF Hr).
      exact (B_new_config EO SO A en b xs c f Hc).
    - rewrite <- (C65_construct E EO SO fl bld A en b (K_par _ _ xs) f t f' HF Hr). exact (B_par EO SO A en b xs f Hp).
    - rewrite <- (C65_construct E EO SO fl bld A en b (K_par_config _ _ xs c) f t f' HF Hr). exact (B_par_config EO SO A en b xs c f Hp Hc).
    - rewrite <- (C65_construct E EO SO fl bld A en b (K_data _ _ xs) f t f' HF Hr). exact (B_data EO SO A en b xs f).
    - rewrite <- (C65_construct E EO SO fl bld A en b (K_data_config _ _ xs c) f t f' HF Hr). exact (B_data_config EO SO A en b xs c f Hc).
    - rewrite <- (C65_construct E EO SO fl bld A en b (K_bytes _ _ (encode EO els)) f t f' HF Hr). exact (B_bytes EO SO A en b els f).
    - rewrite <- (C65_construct E EO SO fl bld A en b (K_bytes_config _ _ (encode EO els) c) f t f' HF Hr).
      exact (B_bytes_config EO SO A en b els c f Hc). }
  split; [exact H|]. exact (C01_root E EO A SO np en b leaves f t f' HS H).
Qed.

(* a proof, cached proof, element, range or bytes read through a store that may
   fail are the ones read when nothing fails; for trees of any shape *)
Theorem C65_access : forall E (EO : ElementOps E) SO fl bld A en b sub_ top (t : mtree (st_t SO) E) f,
  let FO := faulty SO fl bld in
  (forall i p, gen_proof FO b sub_ top t f i = Ok p -> gen_proof SO b sub_ top t f i = Ok p) /\
  (forall i rows p, gen_cached_proof EO FO A en b sub_ top t f i rows = Ok p -> gen_cached_proof EO SO A en b sub_ top t f i rows = Ok p) /\
  (forall i x, mt_read_at FO sub_ top t f i = Ok x -> mt_read_at SO sub_ top t f i = Ok x) /\
  (forall s e l, mt_read_range FO t f s e = Ok l -> mt_read_range SO t f s e = Ok l) /\
  (forall i buf d, mt_read_into FO t f i buf = Ok d -> mt_read_into SO t f i buf = Ok d) /\
  (forall s e buf d, mt_read_range_into FO t f s e buf = Ok d -> mt_read_range_into SO t f s e buf = Ok d).
Proof.
  intros E EO SO fl bld A en b sub_ top t f FO. pose proof (faults_any fl) as HP.
  repeat split; intros.
  - exact (RSim_ok _ _ _ _ (proof_sim _ SO fl bld HP b sub_ top t f i) H).
  - exact (RSim_ok _ _ _ _ (cached_sim _ EO SO fl bld HP A en b sub_ top t f i rows) H).
  - exact (RSim_ok _ _ _ _ (read_sim _ SO fl bld HP sub_ top t f i) H).
  - exact (RSim_ok _ _ _ _ (range_sim _ SO fl bld HP t f s e) H).
  - exact (RSim_ok _ _ _ _ (into_sim _ SO fl bld HP t f i buf) H).
  - exact (RSim_ok _ _ _ _ (range_into_sim _ SO fl bld HP t f s e buf) H).
Qed.

(* in particular such a proof validates and is about the requested leaf *)
Theorem C65_proof : forall E (EO : ElementOps E) A SO np fl bld en b leaves f (t : mtree (st_t SO) E) f' i p,
  setting EO A SO np en b -> failing EO SO fl bld ->
  builder EO (faulty SO fl bld) A en b leaves f (Ok t, f') ->
  b = 2 \/ height_agnostic A ->
  gen_proof (faulty SO fl bld) b 0 0 t f' i = Ok p ->
  validate EO A b p = Ok true /\ pf_item p = rnth leaves i /\ pf_root p = Ok (mt_root t) /\ path_index b (pf_path p) = i.
Proof.
  intros E EO A SO np fl bld en b leaves f t f' i p HS HF HB HA HP.
  destruct (C65_tree E EO A SO np fl bld en b leaves f t f' HS HF HB) as [HB' _].
  apply (C65_access E EO SO fl bld A en b 0 0 t f') in HP.
  destruct (C14_base E EO A SO np en b leaves f t f' i p HS HB' HP) as (Hi & H1 & _ & H2 & H3 & _).
  destruct (C11_proofs_validate E EO A SO np en b leaves f t f' i HS HB' HA Hi) as (p' & Hp' & Hv).
  assert (p' = p) as -> by congruence. auto.
Qed.

(* ---------------- returned, not panicking ---------------- *)
(* every failure is a returned error *)
Definition errors_only {E T} (fl : faults E T) : Prop := faults_in (fun e => exists m, e = FErr m) fl.

(* the other constructors hand an error on: the result is the one of a run
   without failures, or an error *)
Theorem C66_returned_partial : forall E (EO : ElementOps E) SO fl bld A en b (k : call E (st_t SO)) f,
  failing EO SO fl bld -> errors_only fl -> expects k = false ->
  fst (run EO (faulty SO fl bld) A en b k f) = fst (run EO SO A en b k f) \/
  exists m, fst (run EO (faulty SO fl bld) A en b k f) = Err m.
Proof.
  intros E EO SO fl bld A en b k f HF HE Hk.
  assert (Hx : expects k = true -> forall e m, (fun e => exists m, e = FErr m) (FErr e) -> (fun e => exists m, e = FErr m) (FPanic m))
    by (rewrite Hk; discriminate).
  destruct (run_sim EO SO fl bld _ A en b k HF HE Hx f) as [H | [(e & [m ->] & H) | (_ & H)]].
  - left. rewrite H. reflexivity.
  - right. exists m. exact H.
  - left. exact H.
Qed.

(* building a tree from leaves on a VecStore or DiskStore then never panics *)
Theorem C66_no_panic_partial : forall E (EO : ElementOps E) SO fl bld A en b (k : call E (st_t SO)) leaves f m,
  setting EO A SO true en b -> failing EO SO fl bld -> errors_only fl -> expects k = false ->
  builder EO SO A en b leaves f (run EO SO A en b k f) ->
  fst (run EO (faulty SO fl bld) A en b k f) <> Panic m.
Proof.
  intros E EO SO fl bld A en b k leaves f m (EL & AL & HS & Hb & Hch) HF HE Hk HB H.
  destruct (C66_returned_partial E EO SO fl bld A en b k f HF HE Hk) as [H' | [m' H']]; rewrite H' in H; [|discriminate H].
  pose proof (builder_outcome EO EL A AL en b SO true HS leaves f _ Hb Hch HB) as HO.
  destruct (run EO SO A en b k f) as [r f']. cbn [fst] in H. rewrite H in HO. cbn in HO. destruct HO as [HO _]. discriminate HO.
Qed.

(* reads and proofs hand errors on too, for every store and shape of tree *)
Theorem C66_access : forall E (EO : ElementOps E) SO fl bld A en b sub_ top (t : mtree (st_t SO) E) f,
  errors_only fl ->
  let FO := faulty SO fl bld in
  (forall i, gen_proof FO b sub_ top t f i = gen_proof SO b sub_ top t f i \/ exists m, gen_proof FO b sub_ top t f i = Err m) /\
  (forall i rows, gen_cached_proof EO FO A en b sub_ top t f i rows = gen_cached_proof EO SO A en b sub_ top t f i rows \/
                  exists m, gen_cached_proof EO FO A en b sub_ top t f i rows = Err m) /\
  (forall i, mt_read_at FO sub_ top t f i = mt_read_at SO sub_ top t f i \/ exists m, mt_read_at FO sub_ top t f i = Err m) /\
  (forall s e, mt_read_range FO t f s e = mt_read_range SO t f s e \/ exists m, mt_read_range FO t f s e = Err m).
Proof.
  intros E EO SO fl bld A en b sub_ top t f HE FO.
  assert (HX : forall e : failure, (exists m, e = FErr m) -> exists m, e = FErr m) by auto.
  repeat split; intros.
  - exact (RSim_err _ _ _ HX (proof_sim _ SO fl bld HE b sub_ top t f i)).
  - exact (RSim_err _ _ _ HX (cached_sim _ EO SO fl bld HE A en b sub_ top t f i rows)).
  - exact (RSim_err _ _ _ HX (read_sim _ SO fl bld HE sub_ top t f i)).
  - exact (RSim_err _ _ _ HX (range_sim _ SO fl bld HE t f s e)).
Qed.

(* ---------------- cases ---------------- *)
(* a disk on which nothing can be written behind element [k] *)
Definition full_disk (k : nat) : faults B1 disk_t := {|
  flt_create := fun _ _ => None;
  flt_write := fun o st => match o with
                           | W_copy _ i => if k <=? i then Some (FErr "No space left on device", st) else None
                           | _ => None
                           end;
  flt_read := fun _ _ => None |}.
(* a file whose elements from k on cannot be read *)
Definition bad_block (k : nat) : faults B1 disk_t := {|
  flt_create := fun _ _ => None;
  flt_write := fun _ _ => None;
  flt_read := fun o _ => match o with
                         | R_at i => if k <=? i then Some (FErr "Input/output error") else None
                         | R_range _ e => if k <? e then Some (FErr "Input/output error") else None
                         | _ => None
                         end |}.
(* no temporary file can be created *)
Definition no_temp : faults B1 disk_t := {|
  flt_create := fun o f => match o with C_new _ => Some (FErr "Permission denied", f) | _ => None end;
  flt_write := fun _ _ => None;
  flt_read := fun _ _ => None |}.

Definition on_disk (fl : faults B1 disk_t) (k : call B1 disk_t) : res B1 :=
  match fst (run BO (faulty_disk BO fl) sum_alg env1 2 k fs_empty) with
  | Ok t => Ok (mt_root t)
  | Err m => Err m
  | Panic m => Panic m
  | Diverge => Diverge
  end.
Definition k_new : call B1 disk_t := K_iter B1 disk_t (Some 8) (map Ok leaves8).
Definition k_new_config : call B1 disk_t := K_iter_config B1 disk_t (Some 8) (map Ok leaves8) cfg0.
Definition k_par : call B1 disk_t := K_par B1 disk_t leaves8.
Definition k_par_config : call B1 disk_t := K_par_config B1 disk_t leaves8 cfg0.

(* failures early, late or not at all: the tree, or the error *)
Example C65_case :
  on_disk (full_disk 100) k_new = on_disk no_faults k_new /\
  is_ok (on_disk (full_disk 100) k_new) = true /\
  on_disk (full_disk 5) k_new = Err "No space left on device" /\
  on_disk (bad_block 12) k_new = Err "Input/output error" /\
  on_disk (bad_block 14) k_new = Err "Input/output error" /\
  on_disk (bad_block 15) k_new = on_disk no_faults k_new /\
  failing BO (disk_store BO) (full_disk 5) (faulty_disk_build BO (full_disk 5)).
Proof.
  split; [vm_compute; reflexivity|]. split; [vm_compute; reflexivity|]. split; [vm_compute; reflexivity|].
  split; [vm_compute; reflexivity|]. split; [vm_compute; reflexivity|]. split; [vm_compute; reflexivity|].
  constructor.
Qed.

Lemma full_disk_errors k : errors_only (full_disk k).
Proof.
  split; [|split].
  - intros o f e f' H. discriminate H.
  - intros [] st e st' H; cbn in H; try discriminate H. destruct (k <=? i); [|discriminate H]. inversion H. eauto.
  - intros o st e H. discriminate H.
Qed.
Lemma no_temp_errors : errors_only no_temp.
Proof.
  split; [|split].
  - intros [] f e f' H; cbn in H; try discriminate H. inversion H. eauto.
  - intros o st e st' H. discriminate H.
  - intros o st e H. discriminate H.
Qed.

Example C66_case :
  errors_only (full_disk 5) /\
  on_disk (full_disk 5) k_par_config = Err "No space left on device" /\ on_disk (full_disk 5) k_new = Err "No space left on device" /\
  on_disk no_temp k_new = Err "Permission denied" /\ is_ok (on_disk no_temp k_par_config) = true.
Proof. split; [apply full_disk_errors|]. vm_compute. repeat split. Qed.

(* but two constructors panic where the error could have been returned: with a
   configuration when populating fails, in parallel without a configuration when
   the store cannot be created *)
Theorem C66_refuted :
  errors_only (full_disk 5) /\ errors_only no_temp /\
  on_disk (full_disk 5) k_new_config = Panic "failed to populate data" /\
  on_disk no_temp k_par = Panic "failed to create data store".
Proof. split; [apply full_disk_errors|]. split; [apply no_temp_errors|]. vm_compute. repeat split. Qed.

Print Assumptions C65_construct.
Print Assumptions C65_no_faults.
Print Assumptions C65_tree.
Print Assumptions C65_access.
Print Assumptions C65_proof.
Print Assumptions C66_returned_partial.
Print Assumptions C66_no_panic_partial.
Print Assumptions C66_access.
Print Assumptions C66_refuted.
