(* C86: a node depends only on the leaves below it, and a proof changes accordingly.
   Facts in LocalFacts.v. *)
From Coq Require Import String List Arith Bool Lia Init.Byte ZifyBool ZifyNat.
From Verif Require Import Base Element Hash Sizing FS Sched Store VecStore DiskStore MmapStore ProofModel Tree ListFacts Spec SpecFacts SizingFacts StoreLaws RowFacts StoreSpec TreeFacts ProofSpec ProofFacts TreeProofs TreeObs Builders Cases Props_Build LocalFacts.
Import ListNotations.

(* two trees of one arity and size, made by any constructors over any of the stores *)
Definition two_builds {E} (EO : ElementOps E) (A : AlgOps E) (b : nat) (leaves leaves' : list E)
    (SO SO' : StoreOps E) (t : mtree (st_t SO) E) (f : fs) (t' : mtree (st_t SO') E) (f' : fs) : Prop :=
  (exists np en f0, setting EO A SO np en b /\ builder EO SO A en b leaves f0 (Ok t, f)) /\
  (exists np en f0, setting EO A SO' np en b /\ builder EO SO' A en b leaves' f0 (Ok t', f')) /\
  List.length leaves = List.length leaves'.

Lemma two_full {E} (EO : ElementOps E) A b leaves leaves' SO SO' t f t' f' :
  two_builds EO A b leaves leaves' SO SO' t f t' f' ->
  exists d els els', ElementLaws EO /\ arity b /\ List.length leaves = b ^ d /\
    FullTree SO A b t f d leaves els /\ FullTree SO' A b t' f' d leaves' els'.
Proof.
  intros ((np & en & f0 & (EL & AL & HS & Hb & Hch) & HB) & (np' & en' & f0' & (_ & _ & HS' & _ & Hch') & HB') & Hl).
  destruct (builder_tree EO EL A AL en b SO np HS leaves f0 t f Hb Hch HB) as (d & els & Hn & HF).
  destruct (builder_tree EO EL A AL en' b SO' np' HS' leaves' f0' t' f' Hb Hch' HB') as (d' & els' & Hn' & HF').
  assert (d = d') by (apply (same_leaves_pow b); congruence). subst d'. exists d, els, els'. auto.
Qed.

(* node k of row r is a function of leaves k*b^r .. (k+1)*b^r - 1 *)
Theorem C86_node : forall E (EO : ElementOps E) A b leaves leaves' SO SO' t f t' f' d r k,
  two_builds EO A b leaves leaves' SO SO' t f t' f' -> List.length leaves = b ^ d ->
  r <= d -> k < b ^ (d - r) ->
  (forall j, k * b ^ r <= j < (k + 1) * b ^ r -> nth_error leaves j = nth_error leaves' j) ->
  exists x, mt_read_at SO 0 0 t f (row_off b d r + k) = Ok x /\ mt_read_at SO' 0 0 t' f' (row_off b d r + k) = Ok x.
Proof.
  intros E EO A b leaves leaves' SO SO' t f t' f' d r k H2B Hd Hr Hk Hag. pose proof H2B as (_ & _ & Hl).
  destruct (two_full _ _ _ _ _ _ _ _ _ _ _ H2B) as (d' & els & els' & EL & Hb & Hn & HF & HF').
  assert (d = d') by (apply (same_leaves_pow b); congruence). subst d'.
  pose proof (ft_layout _ _ _ _ _ _ _ _ HF) as HL. pose proof (ft_layout _ _ _ _ _ _ _ _ HF') as HL'.
  pose proof (row_off_bound b d r k Hr Hk) as Hg.
  rewrite (ft_read_at _ _ _ _ _ _ _ _ HF), (ft_read_at _ _ _ _ _ _ _ _ HF') by auto.
  pose proof HL as (_ & L2 & _). destruct (nth_error_ex els (row_off b d r + k) ltac:(lia)) as [x Hx].
  exists x. unfold rnth. rewrite <- (layout_local b Hb _ d leaves leaves' els els' HL HL' r k Hr Hk), Hx by
    (apply list_ext; [rewrite !sub_length, Hl; reflexivity|]; intros j Hj; rewrite !nth_error_sub;
     destruct (j <? b ^ r) eqn:Q; [apply Hag; lia|reflexivity]).
  auto.
Qed.

(* a change of leaf i leaves every node that is not above it alone *)
Theorem C86_outside : forall E (EO : ElementOps E) A b leaves leaves' SO SO' t f t' f' d i r k,
  two_builds EO A b leaves leaves' SO SO' t f t' f' -> List.length leaves = b ^ d ->
  (forall j, j <> i -> nth_error leaves j = nth_error leaves' j) ->
  r <= d -> k < b ^ (d - r) -> k <> i / b ^ r ->
  exists x, mt_read_at SO 0 0 t f (row_off b d r + k) = Ok x /\ mt_read_at SO' 0 0 t' f' (row_off b d r + k) = Ok x.
Proof.
  intros E EO A b leaves leaves' SO SO' t f t' f' d i r k H2B Hd Hag Hr Hk Hn.
  apply (C86_node E EO A b leaves leaves'); auto. intros j Hj. apply Hag. intros ->. apply Hn.
  apply (Nat.div_unique i (b ^ r) k (i - k * b ^ r)); lia.
Qed.

(* ... and changes every node above it, unless two lists of children, read from the
   trees, have the same hash *)
Theorem C86_path : forall E (EO : ElementOps E) A b leaves leaves' SO SO' t f t' f' d i r,
  two_builds EO A b leaves leaves' SO SO' t f t' f' -> List.length leaves = b ^ d -> i < b ^ d ->
  nth_error leaves i <> nth_error leaves' i -> r <= d ->
  mt_read_at SO 0 0 t f (row_off b d r + i / b ^ r) <> mt_read_at SO' 0 0 t' f' (row_off b d r + i / b ^ r) \/
  exists q xs ys, q < r /\ xs <> ys /\ h_node A q xs = h_node A q ys /\
    let s := row_off b d q + i / b ^ S q * b in
    mt_read_range SO t f s (s + b) = Ok xs /\ mt_read_range SO' t' f' s (s + b) = Ok ys.
Proof.
  intros E EO A b leaves leaves' SO SO' t f t' f' d i r H2B Hd Hi Hne Hr. 
  destruct (two_full _ _ _ _ _ _ _ _ _ _ _ H2B) as (d' & els & els' & EL & Hb & Hn & HF & HF').
  assert (d = d') by (apply (same_leaves_pow b); congruence). subst d'.
  pose proof (ft_layout _ _ _ _ _ _ _ _ HF) as HL. pose proof (ft_layout _ _ _ _ _ _ _ _ HF') as HL'.
  pose proof (arity_ge b Hb) as H2.
  pose proof (row_off_bound b d r (i / b ^ r) Hr (anc_lt b Hb d r i Hi Hr)) as Hg.
  destruct (path_changes EO EL b Hb _ d leaves leaves' els els' HL HL' i Hi Hne r Hr) as [H|(q & Hq & K1 & K2)].
  - left. rewrite (ft_read_at _ _ _ _ _ _ _ _ HF), (ft_read_at _ _ _ _ _ _ _ _ HF') by auto. unfold rnth.
    pose proof HL as (_ & L2 & _). pose proof HL' as (_ & L2' & _).
    destruct (nth_error_ex els (row_off b d r + i / b ^ r)) as [x Hx]; [rewrite L2; exact Hg|].
    destruct (nth_error_ex els' (row_off b d r + i / b ^ r)) as [y Hy]; [rewrite L2'; exact Hg|].
    rewrite Hx, Hy in *. intros He. apply H. congruence.
  - right. exists q, (kids b els d q i), (kids b els' d q i). split; [exact Hq|]. split; [exact K1|]. split; [exact K2|].
    cbn zeta. pose proof (kids_in_row b Hb d q i Hi ltac:(lia)) as KR. pose proof (row_off_geom b d (S q) ltac:(lia)) as KG.
    set (s := row_off b d q + i / b ^ S q * b) in *.
    rewrite (ft_read_range _ _ _ _ _ _ _ _ HF), (ft_read_range _ _ _ _ _ _ _ _ HF') by lia.
    unfold kids. fold s. replace (s + b - s) with b by lia. auto.
Qed.

(* the proof of the changed leaf: only the leaf and the root in it change, so whoever holds
   the old proof can compute the new root and the new proof from the new leaf *)
Theorem C86_own : forall E (EO : ElementOps E) A b leaves leaves' SO SO' t f t' f' i x y,
  two_builds EO A b leaves leaves' SO SO' t f t' f' ->
  (forall j, j <> i -> nth_error leaves j = nth_error leaves' j) ->
  nth_error leaves i = Some x -> nth_error leaves' i = Some y ->
  exists mid path,
    gen_proof SO b 0 0 t f i = Ok (mk_proof None 0 0 (x :: mid ++ [mt_root t]) path) /\
    gen_proof SO' b 0 0 t' f' i = Ok (mk_proof None 0 0 (y :: mid ++ [mt_root t']) path) /\
    climb (h_node A) 0 y (groups b (x :: mid ++ [mt_root t]) (List.length path)) path = mt_root t'.
Proof.
  intros E EO A b leaves leaves' SO SO' t f t' f' i x y H2B Hag Hx Hy. pose proof H2B as (_ & _ & Hl).
  destruct (two_full _ _ _ _ _ _ _ _ _ _ _ H2B) as (d & els & els' & EL & Hb & Hn & HF & HF').
  pose proof (ft_layout _ _ _ _ _ _ _ _ HF) as HL. pose proof (ft_layout _ _ _ _ _ _ _ _ HF') as HL'.
  pose proof (arity_ge b Hb) as H2.
  assert (Hi : i < b ^ d) by (rewrite <- Hn; apply nth_error_lt in Hx; exact Hx).
  assert (Ex : nth_error els i = Some x) by (rewrite (Layout_leaf b ltac:(lia) _ d leaves els i HL Hi); exact Hx).
  assert (Ey : nth_error els' i = Some y) by (rewrite (Layout_leaf b ltac:(lia) _ d leaves' els' i HL' Hi); exact Hy).
  rewrite (ft_proof _ _ _ _ _ _ _ _ HF i Hi), (ft_proof _ _ _ _ _ _ _ _ HF' i Hi).
  pose proof (lemma_of_eq b d els i x _ Hi Ex (ft_root _ _ _ _ _ _ _ _ HF)) as LE.
  pose proof (lemma_of_eq b d els' i y _ Hi Ey (ft_root _ _ _ _ _ _ _ _ HF')) as LE'.
  set (mid := flat_map (fun r => remove_at (digit b r i) (kids b els d r i)) (seq 0 d)) in *.
  set (mid' := flat_map (fun r => remove_at (digit b r i) (kids b els' d r i)) (seq 0 d)) in *.
  assert (Lm : List.length mid = (b - 1) * d).
  { pose proof (lemma_of_length b Hb d leaves els _ HL i Hi) as L. rewrite LE in L. cbn [List.length] in L. rewrite app_length in L. cbn [List.length] in L. lia. }
  assert (Lm' : List.length mid' = (b - 1) * d).
  { pose proof (lemma_of_length b Hb d leaves' els' _ HL' i Hi) as L. rewrite LE' in L. cbn [List.length] in L. rewrite app_length in L. cbn [List.length] in L. lia. }
  assert (HM : mid' = mid).
  { apply list_ext; [congruence|]. intros k Hk.
    pose proof (lemma_own b Hb _ d leaves leaves' els els' HL HL' i (conj Hl Hag) Hi (S k) ltac:(lia) ltac:(lia)) as O.
    rewrite LE, LE' in O. cbn [nth_error] in O. rewrite !nth_error_app1 in O by lia. symmetry. exact O. }
  exists mid, (path_of b d i). rewrite LE, LE', HM. split; [reflexivity|]. split; [reflexivity|].
  rewrite path_of_length, <- LE, (groups_lemma_of b Hb d leaves els _ HL i Hi).
  pose proof (climb_complete b Hb d leaves' els' _ HL' (h_node A) i ltac:(auto) Hi d 0 y eq_refl) as C.
  cbn [row_off Nat.add] in C. rewrite Nat.pow_0_r, Nat.div_1_r in C. specialize (C Ey).
  rewrite (ft_root _ _ _ _ _ _ _ _ HF') in C.
  assert (HG : map (fun r => remove_at (digit b r i) (kids b els d r i)) (seq 0 d) = map (fun r => remove_at (digit b r i) (kids b els' d r i)) (seq 0 d)).
  { rewrite <- (groups_lemma_of b Hb d leaves els _ HL i Hi), <- (groups_lemma_of b Hb d leaves' els' _ HL' i Hi).
    rewrite LE, LE', HM. unfold groups. apply map_ext_in. intros r Hr. apply in_seq in Hr.
    change (1 + r * (b - 1)) with (S (r * (b - 1))). change (sub (?z :: ?l) (S ?n) ?m) with (sub l n m).
    rewrite !sub_app_l by (rewrite Lm; assert (S r * (b - 1) <= d * (b - 1)) by (apply Nat.mul_le_mono_r; lia); lia). reflexivity. }
  rewrite HG. unfold path_of. congruence.
Qed.

(* the proof of any other leaf: one sibling (the ancestor of the changed leaf next to the
   path, in the row below the one where the paths meet) and the root change *)
Theorem C86_other : forall E (EO : ElementOps E) A b leaves leaves' SO SO' t f t' f' d i j,
  two_builds EO A b leaves leaves' SO SO' t f t' f' -> List.length leaves = b ^ d ->
  (forall k, k <> i -> nth_error leaves k = nth_error leaves' k) -> i < b ^ d -> j < b ^ d -> i <> j ->
  exists p p' r at_ x x', gen_proof SO b 0 0 t f j = Ok p /\ gen_proof SO' b 0 0 t' f' j = Ok p' /\ pf_path p = pf_path p' /\
    List.length (pf_lemma p) = List.length (pf_lemma p') /\
    (forall k, k <> at_ -> k <> List.length (pf_lemma p) - 1 -> nth_error (pf_lemma p) k = nth_error (pf_lemma p') k) /\
    r < d /\ i / b ^ r <> j / b ^ r /\ i / b ^ S r = j / b ^ S r /\
    1 + r * (b - 1) <= at_ < 1 + (r + 1) * (b - 1) /\
    nth_error (pf_lemma p) at_ = Some x /\ mt_read_at SO 0 0 t f (row_off b d r + i / b ^ r) = Ok x /\
    nth_error (pf_lemma p') at_ = Some x' /\ mt_read_at SO' 0 0 t' f' (row_off b d r + i / b ^ r) = Ok x'.
Proof.
  intros E EO A b leaves leaves' SO SO' t f t' f' d i j H2B Hd Hag Hi Hj Hij. pose proof H2B as (_ & _ & Hl).
  destruct (two_full _ _ _ _ _ _ _ _ _ _ _ H2B) as (d' & els & els' & EL & Hb & Hn & HF & HF').
  assert (d = d') by (apply (same_leaves_pow b); congruence). subst d'.
  pose proof (ft_layout _ _ _ _ _ _ _ _ HF) as HL. pose proof (ft_layout _ _ _ _ _ _ _ _ HF') as HL'.
  destruct (lemma_other b Hb _ d leaves leaves' els els' HL HL' i (conj Hl Hag) j Hi Hj Hij) as (r & c & Hr & Hc & M1 & M2 & S1 & S2 & S3).
  pose proof (row_off_bound b d r (i / b ^ r) ltac:(lia) (anc_lt b Hb d r i Hi ltac:(lia))) as Hg.
  pose proof HL as (_ & L2 & _). pose proof HL' as (_ & L2' & _).
  destruct (nth_error_ex els (row_off b d r + i / b ^ r)) as [x Hx]; [rewrite L2; exact Hg|].
  destruct (nth_error_ex els' (row_off b d r + i / b ^ r)) as [x' Hx']; [rewrite L2'; exact Hg|].
  eexists _, _, r, (1 + r * (b - 1) + c), x, x'. split; [exact (ft_proof _ _ _ _ _ _ _ _ HF j Hj)|].
  split; [exact (ft_proof _ _ _ _ _ _ _ _ HF' j Hj)|]. cbn [pf_path pf_lemma].
  rewrite (lemma_of_length b Hb d leaves els _ HL j Hj), (lemma_of_length b Hb d leaves' els' _ HL' j Hj).
  split; [reflexivity|]. split; [reflexivity|].
  split; [intros k K1 K2; apply S3; [exact K1|clear - K2; lia]|].
  split; [exact Hr|]. split; [exact M1|]. split; [exact M2|].
  split; [clear - Hc; rewrite Nat.mul_add_distr_r; lia|].
  rewrite S1, S2, (ft_read_at _ _ _ _ _ _ _ _ HF), (ft_read_at _ _ _ _ _ _ _ _ HF') by exact Hg.
  unfold rnth. rewrite Hx, Hx'. auto.
Qed.

(* 16 leaves, arity 4, leaf 6 changed: elements, and the proofs of leaves 6, 4 and 13 *)
Definition case86 (n : nat) : res (mtree (st_t (vec_store BO)) B1) * fs :=
  from_byte_slice BO (vec_store BO) sum_alg env1 4 (encode BO (map el [3; 1; 4; 1; 5; 9; n; 6; 5; 3; 5; 8; 9; 7; 9; 3])) fs_empty.
Definition nodes86 (n : nat) : list (res nat) := elems (vec_store BO) (case86 n) tt.
Definition lemma86 (n i : nat) : res (list nat) :=
  match case86 n with
  | (Ok t, f) => match gen_proof (vec_store BO) 4 0 0 t f i with Ok p => Ok (map val (pf_lemma p)) | _ => Err "no proof" end
  | _ => Err "no tree"
  end.
Definition differ {X} (eqb : X -> X -> bool) (l l' : list X) : list nat :=
  map fst (filter (fun z => negb (eqb (fst (snd z)) (snd (snd z)))) (combine (seq 0 (List.length l)) (combine l l'))).
Definition lem (r : res (list nat)) : list nat := match r with Ok l => l | _ => [] end.
Example C86_case :
  differ (fun a b => match a, b with Ok x, Ok y => x =? y | _, _ => false end) (nodes86 2) (nodes86 200) = [6; 17; 20] /\
  differ Nat.eqb (lem (lemma86 2 6)) (lem (lemma86 200 6)) = [0; 7] /\
  differ Nat.eqb (lem (lemma86 2 4)) (lem (lemma86 200 4)) = [2; 7] /\
  differ Nat.eqb (lem (lemma86 2 13)) (lem (lemma86 200 13)) = [5; 7].
Proof. vm_compute. auto. Qed.

(* the hypotheses hold there *)
Example C86_case_builds :
  match case86 2, case86 200 with
  | (Ok t, f), (Ok t', f') =>
      two_builds BO sum_alg 4 (map el [3; 1; 4; 1; 5; 9; 2; 6; 5; 3; 5; 8; 9; 7; 9; 3]) (map el [3; 1; 4; 1; 5; 9; 200; 6; 5; 3; 5; 8; 9; 7; 9; 3])
        (vec_store BO) (vec_store BO) t f t' f'
  | _, _ => False
  end.
Proof.
  destruct (case86 2) as [r f] eqn:G. destruct (case86 200) as [r' f'] eqn:G'.
  assert (K : is_ok (fst (case86 2)) = true) by (vm_compute; reflexivity).
  assert (K' : is_ok (fst (case86 200)) = true) by (vm_compute; reflexivity).
  rewrite G in K. rewrite G' in K'. cbn [fst] in K, K'. destruct r as [t|?|?|]; try discriminate K. destruct r' as [t'|?|?|]; try discriminate K'.
  assert (S : setting BO sum_alg (vec_store BO) true env1 4) by (apply setting_intro; [constructor|apply arity_4|split; [cbn; lia|reflexivity]]).
  split; [|split; [|reflexivity]]; exists true, env1, fs_empty; (split; [exact S|]).
  - rewrite <- G. constructor.
  - rewrite <- G'. constructor.
Qed.

Print Assumptions C86_node.
Print Assumptions C86_outside.
Print Assumptions C86_path.
Print Assumptions C86_own.
Print Assumptions C86_other.
