(* C39: what the constructors make of a file that is already there. *)
From Coq Require Import String List Arith NArith Bool Lia Init.Byte ZifyBool ZifyNat.
From Verif Require Import Base Element Hash Sizing FS Sched Store VecStore DiskStore MmapStore LevelCache ProofModel Tree Faults Stop ListFacts Spec SpecFacts SizingFacts SchedFacts StoreLaws RowFacts ChunkFacts BuildFacts BuildLoop StoreSpec FileFacts ByteFacts VecFacts MapLayer DiskFacts MmapFacts PopFacts TreeFacts ProofSpec ProofFacts TreeProofs TreeObs Builders BuiltFacts CompactTrees ReopenFacts StopFacts Cases Props_Build Props_Reopen Props_Stop.
Import ListNotations.

(* Any file at the configured path decides the outcome of every DiskStore with_config
   constructor but from_byte_slice_with_config; the caller's data is not looked at.  A file
   of another length is refused.  A file of the finished length is taken for the tree,
   with its last element as the root.  The file stays as it is. *)
Theorem C39_exact : forall E (EO : ElementOps E) A en b c d data f r,
  setting EO A (disk_store EO) true en b -> 1 <= d ->
  fs_file f (cfg_path c) = Some data -> again EO A en b c (b ^ d) f r ->
  if List.length data =? geom b d * e_byte_len EO
  then exists t, r = (Ok t, f) /\ mt_leafs t = b ^ d /\ mt_row_count t = d + 1 /\
    (forall j, j < geom b d -> mt_read_at (disk_store EO) 0 0 t f j = e_from_slice EO (sub data (j * e_byte_len EO) (e_byte_len EO))) /\
    e_from_slice EO (skipn ((geom b d - 1) * e_byte_len EO) data) = Ok (mt_root t)
  else exists e, r = (Err e, f).
Proof.
  intros E EO A en b c d data f r HS Hd HF HA. destruct (Nat.eqb_spec (List.length data) (geom b d * e_byte_len EO)) as [Hn|Hn].
  - destruct HS as (EL & AL & _ & Hb & Hch).
    destruct (again_any EO EL A en b Hb f c d data r Hd HF Hn HA) as (t & -> & T1 & T2 & T3 & T4).
    exists t. repeat split; auto. rewrite <- T3. f_equal. unfold sub. symmetry. apply firstn_all2. rewrite skipn_length, Hn.
    pose proof (Nat.mul_sub_distr_r (geom b d) 1 (e_byte_len EO)). pose proof (geom_pos b d).
    pose proof (Nat.mul_le_mono_r 1 (geom b d) (e_byte_len EO) ltac:(lia)). lia.
  - exact (C39_size_partial E EO A en b c d data f r HS Hd HF Hn HA).
Qed.

(* so the second call's root is the data's just when the file ends in it *)
Theorem C39_right_root : forall E (EO : ElementOps E) A en b c d data f t f' leaves root,
  setting EO A (disk_store EO) true en b -> 1 <= d -> MRoot (h_node A) b d leaves root ->
  fs_file f (cfg_path c) = Some data -> again EO A en b c (b ^ d) f (Ok t, f') ->
  mt_root t = root <-> e_from_slice EO (skipn ((geom b d - 1) * e_byte_len EO) data) = Ok root.
Proof.
  intros E EO A en b c d data f t f' leaves root HS Hd HM HF HA. pose proof (C39_exact E EO A en b c d data f _ HS Hd HF HA) as H.
  destruct (_ =? _); [|destruct H as [e H]; discriminate]. destruct H as (t' & Q & _ & _ & _ & HR).
  assert (t' = t) as -> by congruence. rewrite HR. split; congruence.
Qed.

(* fifteen sevens are taken for a tree of eight leaves, fourteen are not *)
Definition sevens (n : nat) : fs :=
  snd (sbind (fs_create_new (cfg_path cfg0)) (fun h => fs_write_all_at h 0 (repeat x07 n)) fs_empty).
Example C39_exact_case :
  fs_file (sevens 15) (cfg_path cfg0) = Some (repeat x07 15) /\ geom 2 3 * e_byte_len BO = 15 /\
  root_of (mt_new_with_config BO (disk_store BO) sum_alg env1 2 leaves8 cfg0 (sevens 15)) = Some 7 /\
  root_of (mt_new_with_config BO (disk_store BO) sum_alg env1 2 leaves8 cfg0 (sevens 14)) = None.
Proof. vm_compute. auto. Qed.

Print Assumptions C39_exact.
Print Assumptions C39_right_root.
