(* C67: tree constructors keep to the files of their configurations.  Proofs in OwnFile.v. *)
From Coq Require Import String List Arith NArith Bool Lia Init.Byte ZifyBool ZifyNat.
From Verif Require Import Base Element Hash Sizing FS Sched Store VecStore DiskStore MmapStore LevelCache ProofModel Tree ListFacts Spec SpecFacts SizingFacts SchedFacts StoreLaws RowFacts ChunkFacts BuildFacts BuildLoop StoreSpec FileFacts VecFacts MapLayer DiskFacts MmapFacts ArraySpec ArrayFacts ArrayStart FrameFacts FileSpec Cases Props_Files OwnFile.
Import ListNotations.

(* one call of a MerkleTree constructor with the configurations [cs]; arbitrary input: iterators
   that fail or lie about their length, slices of any size, wrong leaf counts, any arities,
   any schedule; paths may be free or occupied *)
Inductive tree_call {E} (EO : ElementOps E) (SO : StoreOps E) (A : AlgOps E) (en : env) (b : nat) (f : fs)
  : list StoreConfig -> res (mtree (st_t SO) E) * fs -> Prop :=
| TC_iter hint items c : tree_call EO SO A en b f [c] (try_from_iter_with_config EO SO A en b hint items c f)
| TC_new items c : tree_call EO SO A en b f [c] (mt_new_with_config EO SO A en b items c f)
| TC_data items c : tree_call EO SO A en b f [c] (from_data_with_config EO SO A en b items c f)
| TC_par items c : tree_call EO SO A en b f [c] (from_par_iter_with_config EO SO A en b items c f)
| TC_bytes data c : tree_call EO SO A en b f [c] (from_byte_slice_with_config EO SO A en b data c f)
| TC_slice sub_ top data n c : tree_call EO SO A en b f [c] (from_tree_slice_with_config EO SO b sub_ top data n c f)
| TC_slices sub_ data n cs : tree_call EO SO A en b f cs (from_slices_with_configs EO SO A b sub_ data n cs f)
| TC_configs sub_ n cs : tree_call EO SO A en b f cs (from_store_configs SO A b sub_ n cs f)
| TC_sub_configs sub_ top n cs : tree_call EO SO A en b f cs (from_sub_tree_store_configs SO A b sub_ top n cs f).

(* whatever the outcome, every file at another path is what it was, and no name was
   given to an existing file *)
Definition only_own_files {E} (EO : ElementOps E) (SO : StoreOps E) : Prop := forall A en b f cs r f',
  tree_call EO SO A en b f cs (r, f') -> fs_ok f ->
  fs_ok f' /\ forall q, ~ In q (map cfg_path cs) -> file_at f' q = file_at f q.

Lemma bound_own {E} (EO : ElementOps E) SO own : FileBound SO own -> only_own_files EO SO.
Proof.
  intros FB A en b f cs r f' HC.
  enough (H : only (at_one cs) f f').
  { intros W. destruct (H W) as [W' Q]. split; [exact W'|]. intros q Hq. apply Q. intros (c & Hc & <-). apply Hq. apply in_map. exact Hc. }
  enough (G : forall rf, tree_call EO SO A en b f cs rf -> only (at_one cs) f (snd rf)) by exact (G _ HC).
  clear HC. intros rf HC. destruct HC.
  - apply (one_of c); [left; reflexivity|apply (iter_only EO SO own FB)].
  - apply (one_of c); [left; reflexivity|apply (iter_only EO SO own FB)].
  - apply (one_of c); [left; reflexivity|apply (iter_only EO SO own FB)].
  - apply (one_of c); [left; reflexivity|apply (par_only EO SO own FB)].
  - apply (one_of c); [left; reflexivity|apply (bytes_only EO SO own FB)].
  - apply (one_of c); [left; reflexivity|apply (tree_slice_only EO SO own FB)].
  - apply (slices_only EO SO own FB).
  - apply (configs_only SO own FB).
  - apply (sub_configs_only SO own FB).
Qed.

Theorem C67_disk : forall E (EO : ElementOps E), only_own_files EO (disk_store EO).
Proof. intros E EO. exact (bound_own EO _ _ (disk_bound EO)). Qed.
Theorem C67_mmap : forall E (EO : ElementOps E), only_own_files EO (mmap_store_ops EO).
Proof. intros E EO. exact (bound_own EO _ _ (mmap_bound EO)). Qed.
Theorem C67_level_cache : forall E (EO : ElementOps E), only_own_files EO (lc_store EO).
Proof. intros E EO. exact (bound_own EO _ _ (lc_bound EO)). Qed.

(* over VecStore nothing at all happens to files *)
Theorem C67_vec : forall E (EO : ElementOps E) A en b f cs r f',
  tree_call EO (vec_store EO) A en b f cs (r, f') -> f' = f.
Proof.
  intros E EO A en b f cs r f' HC.
  enough (G : forall rf, tree_call EO (vec_store EO) A en b f cs rf -> snd rf = f) by exact (G _ HC).
  clear HC. intros rf HC. destruct HC.
  - apply vec_iter_fs.
  - apply vec_iter_fs.
  - apply vec_iter_fs.
  - apply vec_par_fs.
  - apply vec_bytes_fs.
  - apply vec_slice_fs.
  - apply vec_slices_fs.
  - apply vec_configs_fs.
  - apply vec_sub_configs_fs.
Qed.

(* opening trees over a replica only reads *)
Theorem C67_replica : forall E (EO : ElementOps E) A b sub_ top n cs rc f,
  snd (from_store_configs_and_replica EO A b sub_ n cs rc f) = f /\
  snd (from_sub_tree_store_configs_and_replica EO A b sub_ top n cs rc f) = f.
Proof.
  intros E EO A b sub_ top n cs rc f.
  assert (G : forall cs rc, snd (from_store_configs_and_replica EO A b sub_ n cs rc f) = f).
  { intros cs0 rc0. unfold from_store_configs_and_replica. apply bind_pure; [reflexivity|]. intros _. apply bind_pure; [|reflexivity]. apply smap_pure. intros [i c].
    apply bind_pure; [reflexivity|]. intros size. apply bind_pure; [reflexivity|]. intros f0. apply bind_pure; [reflexivity|]. intros r. apply bind_pure; [reflexivity|].
    intros s. apply data_store_pure. }
  split; [apply G|]. unfold from_sub_tree_store_configs_and_replica. apply bind_pure; [reflexivity|]. intros _. destruct (top =? 0); [reflexivity|].
  cbv zeta. apply bind_pure; [|reflexivity]. apply smap_pure. intros k. apply G.
Qed.

(* the file names: configurations of one directory with different ids have different files,
   so trees named by [from_config] (store/mod.rs 184-197) never share one *)
Lemma append_inv_l (p x y : string) : (p ++ x = p ++ y -> x = y)%string.
Proof. induction p as [|c p IH]; cbn; intros H; [exact H|]. inversion H. auto. Qed.
Lemma append_inv_r (p x y : string) : (x ++ p = y ++ p -> x = y)%string.
Proof.
  assert (L : forall a b : string, String.length (a ++ b) = String.length a + String.length b)
    by (intros a b; induction a as [|c a IH]; cbn; [reflexivity|rewrite IH; reflexivity]).
  revert y. induction x as [|c x IH]; intros [|d y] H; cbn in H; [reflexivity| | |].
  - apply (f_equal String.length) in H. cbn in H. rewrite L in H. lia.
  - apply (f_equal String.length) in H. cbn in H. rewrite L in H. lia.
  - inversion H. f_equal. auto.
Qed.
Theorem C67_names : forall path a b, data_path path a = data_path path b -> a = b.
Proof.
  intros path a b H. unfold data_path, path_join in H.
  assert (G : ("sc-02-data-" ++ a ++ ".dat" = "sc-02-data-" ++ b ++ ".dat")%string).
  { destruct path as [|c p]; [exact H|]. destruct (String.eqb _ _); apply append_inv_l in H; [exact H|]. inversion H. reflexivity. }
  apply append_inv_l in G. exact (append_inv_r _ _ _ G).
Qed.
Theorem C67_from_config : forall c id size, cfg_path (from_config c id size) = cfg_path c <-> id = sc_id c.
Proof. intros c id size. split; [intros H; exact (C67_names _ _ _ H)|intros ->; reflexivity]. Qed.
(* apart from the name the derived configuration is the old one, with the new size if one is
   given; without any change it is the old one, and a second derivation forgets the first *)
Theorem C67_derived : forall c id size,
  sc_path (from_config c id size) = sc_path c /\ sc_id (from_config c id size) = id /\
  sc_rows_to_discard (from_config c id size) = sc_rows_to_discard c /\
  (forall n, size = Some n -> sc_size (from_config c id size) = Some n) /\ (size = None -> sc_size (from_config c id size) = sc_size c) /\
  from_config c (sc_id c) None = c /\ (forall id' n, from_config (from_config c id size) id' (Some n) = from_config c id' (Some n)).
Proof. intros [p i s r] id size. repeat split; intros; subst; reflexivity. Qed.
(* in different directories an id with a slash can name another configuration's file *)
Example C67_slash : data_path "/d" "x/sc-02-data-y" = data_path "/d/sc-02-data-x" "y".
Proof. reflexivity. Qed.

(* two trees of four leaves, then a failing build (the iterator breaks off) and a build from
   two configurations, one of them occupied *)
Definition named (x : string) : StoreConfig := {| sc_path := "/d"; sc_id := x; sc_size := None; sc_rows_to_discard := 1 |}.
Definition files (f : fs) : list (option (list nat)) :=
  map (fun x => match file_at f (cfg_path (named x)) with Some i => Some (map (fun y => N.to_nat (Byte.to_N y)) (i_data i)) | None => None end) ["a"; "b"; "c"; "d"]%string.
Example C67_case :
  let f1 := snd (mt_new_with_config BO (disk_store BO) sum_alg env1 2 (map el [1; 2; 3; 4]) (named "a") fs_empty) in
  let '(r2, f2) := try_from_iter_with_config BO (disk_store BO) sum_alg env1 2 (Some 4) (map Ok (map el [5; 6; 7]) ++ [Err "io"%string]) (named "b") f1 in
  let '(r3, f3) := from_slices_with_configs BO (disk_store BO) sum_alg 2 2 [repeat x01 7; repeat x02 7] 4 [named "a"; named "c"] f2 in
  (exists e, r2 = Panic e) /\ is_ok r3 = true /\
  files f1 = [nth 0 (files f1) None; None; None; None] /\ nth 0 (files f1) None <> None /\
  files f3 = [nth 0 (files f1) None; Some [23; 24; 25; 0; 0; 0; 0]; Some [2; 2; 2; 2; 2; 2; 2]; None].
Proof. vm_compute. split; [eexists; reflexivity|]. split; [reflexivity|]. split; [reflexivity|]. split; [discriminate|reflexivity]. Qed.

Print Assumptions C67_disk.
Print Assumptions C67_mmap.
Print Assumptions C67_level_cache.
Print Assumptions C67_vec.
Print Assumptions C67_replica.
Print Assumptions C67_names.
Print Assumptions C67_from_config.
Print Assumptions C67_derived.
