(* C66: the only panics that returned I/O errors can turn into. *)
From Coq Require Import String List Arith NArith Bool Lia Init.Byte ZifyBool ZifyNat.
From Verif Require Import Base Element Hash Sizing FS Sched Store VecStore DiskStore MmapStore LevelCache ProofModel Tree Faults ListFacts Spec SpecFacts SizingFacts StoreLaws StoreSpec VecFacts DiskFacts MmapFacts PopFacts TreeFacts ProofSpec ProofFacts TreeProofs TreeObs Builders FaultFacts Cases Props_Build Props_Proof Props_Fault.
Import ListNotations.

(* the message of the .expect a constructor calls on a store's Result (merkle.rs 1630, 1801-1802) *)
Definition expected {E T} (k : call E T) : option string :=
  match k with
  | K_iter_config _ _ _ _ _ | K_data_config _ _ _ _ => Some "failed to populate data"%string
  | K_par _ _ _ => Some "failed to create data store"%string
  | _ => None
  end.

Lemma run_expected {E} (EO : ElementOps E) SO fl bld P A en b (k : call E (st_t SO)) : failing EO SO fl bld -> faults_in P fl ->
  (forall msg, expected k = Some msg -> P (FPanic msg)) -> Sim P (run EO (faulty SO fl bld) A en b k : SM fs (mtree (st_t SO) E)) (run EO SO A en b k).
Proof.
  intros HF HP Hx. pose proof (failing_build EO SO fl bld P HF HP) as HB.
  destruct k; try (apply (run_sim EO SO fl bld P A en b _ HF HP); discriminate); cbn [run] in *; cbn [expected] in Hx.
  - apply (iter_wc_sim P EO SO fl bld HP HB). auto.
  - apply (iter_wc_sim P EO SO fl bld HP HB). auto.
  - apply (par_sim P EO SO fl bld HP HB). auto.
Qed.

(* Every constructor, when store methods fail only by returning errors: the result of a run
   without failures, an error, or the panic of its one .expect. *)
Theorem C66_exact : forall E (EO : ElementOps E) SO fl bld A en b (k : call E (st_t SO)) f,
  failing EO SO fl bld -> errors_only fl ->
  let r := fst (run EO (faulty SO fl bld) A en b k f) in
  r = fst (run EO SO A en b k f) \/ (exists m, r = Err m) \/ (exists m, expected k = Some m /\ r = Panic m).
Proof.
  intros E EO SO fl bld A en b k f HF (H1 & H2 & H3) r.
  set (P := fun e => (exists m, e = FErr m) \/ exists m, expected k = Some m /\ e = FPanic m).
  assert (HP : faults_in P fl) by (split; [|split]; intros; left; eauto).
  destruct (run_expected EO SO fl bld P A en b k HF HP (fun msg H => or_intror (ex_intro _ msg (conj H eq_refl))) f) as [H | [(e & [[m ->]|(m & Hm & ->)] & H) | (_ & H)]]; subst r.
  - left. rewrite H. reflexivity.
  - right. left. exists m. exact H.
  - right. right. exists m. split; [exact Hm|exact H].
  - left. exact H.
Qed.

(* The panic really happens, for every store, when the temporary store cannot be created ... *)
Theorem C66_create_panics : forall E (EO : ElementOps E) SO fl bld A en b items f d e f',
  failing EO SO fl bld -> arity b -> 1 <= d -> List.length items = b ^ d ->
  flt_create fl (C_new (geom b d)) f = Some (FErr e, f') ->
  exists m, fst (run EO (faulty SO fl bld) A en b (K_par E (st_t SO) items) f) = Panic m /\ expected (K_par E (st_t SO) items) = Some m.
Proof.
  intros E EO SO fl bld A en b items f d e f' HF Hb Hd Hl Hc. exists "failed to create data store"%string. split; [|reflexivity].
  cbn [run]. unfold from_par_iter. cbv zeta. rewrite Hl. rewrite leafs_checks_full by auto.
  cbn [sbind slift]. cbn [faulty st_new inj_create]. unfold inj_create. unfold sbind at 1. unfold sexpect. rewrite Hc. reflexivity.
Qed.

(* ... and in its turn the sequential constructor returns that error *)
Theorem C66_create_returned : forall E (EO : ElementOps E) SO fl bld A en b items f d e f',
  failing EO SO fl bld -> arity b -> 1 <= d -> List.length items = b ^ d ->
  flt_create fl (C_new (geom b d)) f = Some (FErr e, f') ->
  run EO (faulty SO fl bld) A en b (K_iter E (st_t SO) (Some (b ^ d)) (map Ok items)) f = (Err e, f').
Proof.
  intros E EO SO fl bld A en b items f d e f' HF Hb Hd Hl Hc. cbn [run]. unfold try_from_iter. 
  cbn [slift]. unfold sbind at 1, slift at 1. rewrite leafs_checks_full by auto.
  unfold sbind at 1, slift at 1. unfold sbind at 1. cbn [faulty st_new]. unfold inj_create. rewrite Hc. reflexivity.
Qed.

Example C66_exact_case :
  errors_only no_temp /\ flt_create no_temp (C_new (geom 2 3)) fs_empty = Some (FErr "Permission denied"%string, fs_empty) /\
  List.length leaves8 = 2 ^ 3 /\
  on_disk no_temp k_par = Panic "failed to create data store" /\ on_disk no_temp k_new = Err "Permission denied".
Proof. split; [exact no_temp_errors|]. vm_compute. auto. Qed.

Print Assumptions C66_exact.
Print Assumptions C66_create_panics.
Print Assumptions C66_create_returned.
