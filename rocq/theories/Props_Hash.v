(* C46, C47: leaf/node streams and hashable encodings.  Statements; proofs in HashFacts.v. *)
From Coq Require Import String List Arith NArith Bool Lia Init.Byte ZifyBool ZifyNat.
From Verif Require Import Base Element Hash ListFacts HashFacts Cases.
Import ListNotations.

(* ---------------- C46 ---------------- *)
Definition leaf_stream {E} (EO : ElementOps E) (x : E) : list byte := x00 :: e_as_ref EO x.
Definition node_stream {E} (EO : ElementOps E) (nodes : list E) : list byte := x01 :: concat (map (e_as_ref EO) nodes).

(* a streaming hasher: writing two pieces is writing their concatenation *)
Definition streaming {St} (write : St -> list byte -> St) : Prop := forall s a b, write (write s a) b = write s (a ++ b).

(* the streams the default leaf / node / multi_node hash; the height is not in them *)
Theorem C46_streams : forall E (EO : ElementOps E) St (dflt : St) write hash x l r nodes height height',
  streaming write ->
  let A := default_alg EO St dflt write hash in
  let H := fun bs => fst (hash (write dflt bs)) in
  fst (a_leaf A (a_default A) x) = H (leaf_stream EO x) /\
  fst (a_multi_node A (a_default A) nodes height) = H (node_stream EO nodes) /\
  fst (a_node A (a_default A) l r height') = H (node_stream EO [l; r]).
Proof.
  intros E EO St dflt write hash x l r nodes height height' HW A H. unfold leaf_stream, node_stream.
  split; [|split].
  - unfold A, H. cbn [a_leaf a_default default_alg]. rewrite HW. reflexivity.
  - unfold A, H. cbn [a_multi_node a_default default_alg]. do 2 f_equal.
    change (x01 :: concat (map (e_as_ref EO) nodes)) with ([INTERIOR] ++ concat (map (e_as_ref EO) nodes)).
    generalize [INTERIOR] as p. induction nodes as [|n nodes IH]; intros p; cbn [fold_left map concat].
    + rewrite app_nil_r. reflexivity.
    + rewrite HW, IH, <- app_assoc. reflexivity.
  - unfold A, H. cbn [a_node a_default default_alg map concat]. rewrite !HW. cbn [app]. rewrite app_nil_r. reflexivity.
Qed.

(* leaf and node streams differ, node streams determine their children, leaf streams
   their element *)
Theorem C46_separation : forall E (EO : ElementOps E) x y nodes nodes',
  ElementLaws EO ->
  leaf_stream EO x <> node_stream EO nodes /\
  (node_stream EO nodes = node_stream EO nodes' -> nodes = nodes') /\
  (leaf_stream EO x = leaf_stream EO y -> x = y).
Proof.
  intros E EO x y nodes nodes' EL. unfold leaf_stream, node_stream. split; [discriminate|]. split; intros H; injection H as H.
  - apply (encode_inj EO EL). exact H.
  - apply (f_equal (e_from_slice EO)) in H. rewrite !(el_round EO EL) in H. congruence.
Qed.

(* so equal hashes in different roles are a collision of the underlying hash *)
Theorem C46_cross_collision : forall E (EO : ElementOps E) St (dflt : St) write hash x nodes height,
  streaming write ->
  let A := default_alg EO St dflt write hash in
  h_leaf A x = h_node A height nodes ->
  leaf_stream EO x <> node_stream EO nodes /\
  fst (hash (write dflt (leaf_stream EO x))) = fst (hash (write dflt (node_stream EO nodes))).
Proof.
  intros E EO St dflt write hash x nodes height HW A H. split; [discriminate|].
  destruct (C46_streams E EO St dflt write hash x x x nodes height height HW) as (H1 & H2 & _). cbv zeta in *.
  rewrite <- H1, <- H2. exact H.
Qed.

Example C46_case :
  streaming (fun s bs : list byte => s ++ bs) /\
  leaf_stream BO (el 5) = [x00; x05] /\ node_stream BO [el 5; el 6; el 7] = [x01; x05; x06; x07] /\
  h_leaf sum_alg (el 5) = el (poly [x00; x05]).
Proof. split; [intros s a b; symmetry; apply app_assoc|]. vm_compute. auto. Qed.

(* ---------------- C47 ---------------- *)
(* what is fed, per kind of value *)
Theorem C47_streams : forall w v vs bss hs c bs (b : bool) h,
  stream (HInt w v) = le_bytes w v /\
  stream (HBytes bs) = bs /\ stream (HStr bs) = bs /\
  stream (HBool b) = [if b then x01 else x00] /\ stream (HChar c) = le_bytes 4 c /\
  stream (HRef h) = stream h /\
  stream (HIntSlice w vs) = concat (map (fun v => stream (HInt w v)) vs) /\
  stream (HBytesSlice bss) = concat (map (fun bs => stream (HBytes bs)) bss) /\
  stream (HSlice hs) = concat (map stream hs) /\
  stream (HTuple hs) = concat (map stream hs).
Proof.
  intros. rewrite stream_slice, stream_tuple, flat_map_concat_map.
  assert (G : forall w v, stream (HInt w v) = le_bytes w v) by (intros; unfold stream; cbn [feed]; apply stream_one).
  repeat split; try (unfold stream; cbn [feed]; apply stream_one); auto.
  - rewrite (map_ext _ _ (G w)). unfold stream. cbn [feed]. rewrite stream_one, flat_map_concat_map. reflexivity.
  - unfold stream. cbn [feed]. rewrite stream_one. f_equal. rewrite <- (map_id bss) at 1. apply map_ext. intros. cbn [feed]. symmetry. apply stream_one.
Qed.

(* the little-endian representation: w bytes, value = sum of byte * 256^position *)
Fixpoint le_value (bs : list byte) : N :=
  match bs with [] => 0 | c :: r => Byte.to_N c + 256 * le_value r end.
Theorem C47_int_bytes : forall w v, (v < 256 ^ N.of_nat w)%N -> List.length (le_bytes w v) = w /\ le_value (le_bytes w v) = v.
Proof.
  intros w. split; [apply le_bytes_length|]. revert v H. induction w as [|w IH]; intros v H.
  - cbn in H |- *. lia.
  - cbn [le_bytes le_value]. rewrite Nat2N.inj_succ, N.pow_succ_r' in H. rewrite IH by (apply N.div_lt_upper_bound; lia).
    assert (G : Byte.to_N (byte_of_N v) = (v mod 256)%N).
    { unfold byte_of_N. assert (Ha : (v mod 256 < 256)%N) by (apply N.mod_lt; lia).
      destruct (Byte.of_N (v mod 256)) as [x|] eqn:Ea; [|apply Byte.of_N_None_iff in Ea; lia]. apply Byte.to_of_N in Ea. congruence. }
    rewrite G. rewrite (N.div_mod v 256) at 3 by lia. lia.
Qed.

(* the statement for every type *)
Definition C47_full : Prop := forall t a b, has_type t a -> has_type t b -> stream a = stream b -> a = b.

(* proved for every type in which all components but the last have a fixed size and
   slices have elements of a fixed non-zero size; missing: tuples with an inner string,
   byte vector or slice, slices of those, slices of () - where it is false *)
Theorem C47_injective_partial : forall t a b, readable t = true ->
  has_type t a -> has_type t b -> stream a = stream b -> a = b.
Proof. intros t a b HR. apply stream_inj. exact HR. Qed.

(* ("a", "bc") and ("ab", "c") *)
Theorem C47_full_refuted : ~ C47_full.
Proof.
  intros H.
  specialize (H (TTup [TStr; TStr]) (HTuple [HStr [x61]; HStr [x62; x63]]) (HTuple [HStr [x61; x62]; HStr [x63]])).
  assert (G : HTuple [HStr [x61]; HStr [x62; x63]] = HTuple [HStr [x61; x62]; HStr [x63]]) by (apply H; cbn; auto).
  discriminate.
Qed.

Example C47_case :
  readable (TTup [TInt 4; TArr 2; TTup [TBool; TChar]; TSlice (TInt 8)]) = true /\
  has_type (TTup [TInt 4; TArr 2; TTup [TBool; TChar]; TSlice (TInt 8)])
    (HTuple [HInt 4 77%N; HBytes [x01; x02]; HTuple [HBool true; HChar 97%N]; HIntSlice 8 [1%N; 2%N]]) /\
  stream (HTuple [HInt 4 258%N; HStr [x61]]) = [x02; x01; x00; x00; x61].
Proof. split; [reflexivity|]. split; [|reflexivity]. cbn [has_type N.of_nat Pos.of_succ_nat Pos.succ]. repeat match goal with |- _ /\ _ => split | |- Forall _ _ => constructor | |- True => exact I | |- @eq nat _ _ => reflexivity | |- N.lt _ _ => reflexivity end. Qed.

Print Assumptions C46_streams.
Print Assumptions C46_separation.
Print Assumptions C46_cross_collision.
Print Assumptions C47_streams.
Print Assumptions C47_int_bytes.
Print Assumptions C47_injective_partial.
Print Assumptions C47_full_refuted.
