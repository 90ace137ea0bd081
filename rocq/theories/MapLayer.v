(* mmap_process_layer (Store.v), used by DiskStore and LevelCacheStore. *)
From Coq Require Import String List Arith Bool Lia Init.Byte ZifyBool ZifyNat.
From Verif Require Import Base Element Hash Sizing FS Sched Store ListFacts Spec SpecFacts SizingFacts SchedFacts StoreLaws RowFacts ChunkFacts BuildFacts StoreSpec FileFacts ByteFacts.
Import ListNotations.

Lemma fs_set_data_data f i d : fs_data (fs_set_data f i d) i = d.
Proof. unfold fs_data, fs_set_data. simpl. rewrite Nat.eqb_refl. reflexivity. Qed.
Lemma fs_set_data_other f i d j : j <> i -> fs_ino (fs_set_data f i d) j = fs_ino f j.
Proof. intros H. unfold fs_set_data. simpl. replace (j =? i) with false by lia. reflexivity. Qed.
Lemma fs_set_data_frame f i d : fs_frame (Some i) f (fs_set_data f i d).
Proof.
  repeat split; auto.
  - intros j H. apply fs_set_data_other. congruence.
  - intros j. unfold fs_set_data. simpl. destruct (j =? i) eqn:G; auto. replace j with i by lia. reflexivity.
Qed.

Lemma map_arith w b c bl k : 0 < bl -> 0 < b -> k * c < w -> k * (c * bl) < w * b * bl.
Proof.
  intros Hbl Hb H. rewrite Nat.mul_assoc. apply Nat.lt_le_trans with (w * bl).
  - apply Nat.mul_lt_mono_pos_r; auto.
  - apply Nat.mul_le_mono_r. rewrite <- (Nat.mul_1_r w) at 1. apply Nat.mul_le_mono_l. lia.
Qed.

Lemma map_fit w b c bl k p : 0 < b -> p <= c -> k * c + p <= w ->
  p * bl <= Nat.min (c * bl) (w * b * bl - k * (c * bl)).
Proof.
  intros Hb Hp H. apply Nat.min_glb; [apply Nat.mul_le_mono_r; auto|].
  assert (k * c * bl + p * bl <= w * b * bl).
  { rewrite <- Nat.mul_add_distr_r. apply Nat.mul_le_mono_r. apply Nat.le_trans with w; auto.
    rewrite <- (Nat.mul_1_r w) at 1. apply Nat.mul_le_mono_l. lia. }
  rewrite Nat.mul_assoc. lia.
Qed.

Lemma byte_pos c k j k' j' : j < c -> j' < c -> k * c + j = k' * c + j' -> k = k' /\ j = j'.
Proof.
  intros H1 H2 H. assert (k = k').
  { rewrite (Nat.div_unique (k * c + j) c k j) by lia. rewrite (Nat.div_unique (k * c + j) c k' j') by lia. reflexivity. }
  subst. lia.
Qed.

Section MapLayer.
  Context {E : Type} (EO : ElementOps E) (EL : ElementLaws EO) {T : Type}.
  Let bl := e_byte_len EO.
  Let St := (T * fs)%type.
  Variable file : T -> handle.
  Variable chk : St -> nat -> nat -> res unit.
  Variable A : AlgOps E.
  Variables b chunk : nat.
  Hypothesis Hb : arity b.
  Hypothesis Hchunk : 0 < chunk.
  Hypothesis Hdiv : chunk mod b = 0.

  Section Layer.
  Variables (s : T) (f0 : fs) (cap : nat) (v0 : nat -> option E) (rowr : list E) (w level rs ws : nat).
  Hypothesis HW : h_write (file s) = true.
  Hypothesis HD0 : DRep EO cap v0 (fs_data f0 (h_ino (file s))).
  Hypothesis Hlen : List.length rowr = w * b.
  Hypothesis Hw : 1 <= w.
  Hypothesis Hk0 : knows v0 rs rowr.
  Hypothesis Hws : rs + w * b <= ws.
  Hypothesis Hcap : ws + w <= cap.
  Hypothesis Hchk : forall f k n, 0 < n -> k + n <= w * b -> chk (s, f) (rs + k) (rs + k + n) = Ok tt.
  Let ino := h_ino (file s).
  Let d0 := fs_data f0 ino.
  Let n := num_chunks chunk (w * b).
  Let c := chunk / b.
  Let hashed := hash_row A b level rowr.
  Let pc (k : nat) := sub hashed (k * c) (piece b chunk w k).
  Let inb (k : nat) := encode EO (sub rowr (k * c * b) (piece b chunk w k * b)).
  Let out (k : nat) := encode EO (pc k).

  (* the file while the layer is being hashed *)
  Definition MapInv (wd : nat -> nat -> bool) (st : St) : Prop :=
    fst st = s /\ fs_frame (Some ino) f0 (snd st) /\
    List.length (fs_data (snd st) ino) = cap * bl /\
    (forall p, p < ws * bl \/ (ws + w) * bl <= p -> nth_error (fs_data (snd st) ino) p = nth_error d0 p) /\
    (forall q, q < w * bl -> nth_error (fs_data (snd st) ino) (ws * bl + q) = nth_error d0 (ws * bl + q) \/
                             nth_error (fs_data (snd st) ino) (ws * bl + q) = nth_error (encode EO hashed) q) /\
    (forall k j, k < n -> j < List.length (out k) -> wd k j = true ->
       nth_error (fs_data (snd st) ino) (ws * bl + (k * (c * bl) + j)) = nth_error (encode EO hashed) (k * (c * bl) + j)).

  Lemma ml_pos : 2 <= b /\ 0 < bl /\ chunk = c * b /\ 0 < c /\ List.length hashed = w.
  Proof.
    pose proof (arity_ge b Hb) as H2. split; [exact H2|]. split; [apply (bl_pos EO EL)|].
    split; [apply (chunk_eq b chunk Hb Hchunk Hdiv)|]. split; [apply (chunk_pos b chunk Hb Hchunk Hdiv)|].
    apply hash_row_length; [lia|exact Hlen].
  Qed.
  Lemma ml_n k : k < n <-> k * chunk < w * b.
  Proof. apply div_up. exact Hchunk. Qed.
  Lemma ml_n_eq : Nat.min n ((w * b * bl + c * bl - 1) / (c * bl)) = n.
  Proof.
    destruct ml_pos as (H2 & Hbl & C & Cp & _).
    assert (Hkc : forall k, k * chunk < w * b <-> k * c < w).
    { intros k. rewrite C at 1. rewrite Nat.mul_assoc. symmetry. apply Nat.mul_lt_mono_pos_r. lia. }
    apply Nat.min_l. destruct (Nat.le_gt_cases n ((w * b * bl + c * bl - 1) / (c * bl))) as [L|L]; auto.
    exfalso. assert (L' := L). apply ml_n, Hkc in L.
    apply (map_arith w b c bl _ Hbl ltac:(lia)) in L.
    apply div_up in L; [lia|]. apply Nat.mul_pos_pos; auto.
  Qed.
  Lemma ml_piece k : k < n -> k * c + piece b chunk w k <= w /\ 0 < piece b chunk w k /\
      piece b chunk w k <= c /\ List.length (pc k) = piece b chunk w k.
  Proof.
    intros Hk. apply ml_n in Hk. destruct ml_pos as (_ & _ & _ & _ & HlenS).
    destruct (piece_le b chunk Hb Hchunk Hdiv w k Hk) as [P1 P2].
    repeat split; auto; [apply Nat.le_min_l|]. unfold pc. apply sub_length_le. rewrite HlenS. exact P1.
  Qed.
  Lemma ml_out_len k : k < n -> List.length (out k) = piece b chunk w k * bl.
  Proof. intros Hk. unfold out. rewrite (encode_length EO EL). destruct (ml_piece k Hk) as (_ & _ & _ & ->). reflexivity. Qed.
  Lemma ml_in_len k : k < n -> List.length (inb k) = piece b chunk w k * b * bl.
  Proof.
    intros Hk. unfold inb. rewrite (encode_length EO EL). destruct (ml_piece k Hk) as (P1 & _). fold bl. f_equal.
    apply sub_length_le. rewrite Hlen. rewrite <- Nat.mul_add_distr_r. apply Nat.mul_le_mono_r. exact P1.
  Qed.
  Lemma ml_size k : k < n -> Nat.min chunk (rs + w * b - (rs + k * chunk)) = piece b chunk w k * b.
  Proof. intros Hk. apply ml_n in Hk. apply chunk_size_eq; auto. Qed.
  Lemma ml_index k : k * chunk = k * c * b.
  Proof. destruct ml_pos as (_ & _ & C & _). rewrite C at 1. ring. Qed.

  Lemma ml_most k : k < n -> List.length (inb k) <= Nat.min chunk (w * b) * bl /\ List.length (out k) <= Nat.min chunk (w * b) * bl.
  Proof.
    intros Hk. destruct ml_pos as (H2 & Hbl & C & Cp & _). destruct (ml_piece k Hk) as (P1 & P2 & P3 & P4).
    rewrite ml_in_len, ml_out_len by exact Hk.
    assert (Hp : piece b chunk w k * b <= Nat.min chunk (w * b)).
    { apply Nat.min_glb; [apply Nat.le_trans with (c * b); [apply Nat.mul_le_mono_r; exact P3|rewrite <- C; apply le_n]|apply Nat.mul_le_mono_r; lia]. }
    split; apply Nat.mul_le_mono_r; [exact Hp|]. nia.
  Qed.

  Lemma ml_start wd st k : MapInv wd st -> k < n ->
    map_start EO chunk chk (w * b) rs k st = Ok (List.length (inb k)).
  Proof.
    intros (Hs & _) Hk. destruct st as [s1 f1]. cbn [fst] in Hs. subst s1. unfold map_start.
    destruct ml_pos as (H2 & _). destruct (ml_piece k Hk) as (P1 & P2 & _).
    rewrite ml_size by exact Hk. rewrite Hchk; [rewrite ml_in_len by exact Hk; reflexivity| |].
    - apply Nat.mul_pos_pos; lia.
    - rewrite ml_index, <- Nat.mul_add_distr_r. apply Nat.mul_le_mono_r. exact P1.
  Qed.

  Lemma ml_row_bytes : sub d0 (rs * bl) (w * b * bl) = encode EO rowr.
  Proof.
    rewrite <- Hlen. apply (DRep_range EO cap v0 d0 rs rowr HD0); auto.
    rewrite Hlen. lia.
  Qed.

  Lemma ml_in_byte k j : k < n -> j < List.length (inb k) -> nth_error d0 ((rs + k * chunk) * bl + j) = nth_error (inb k) j.
  Proof.
    intros Hk Hj. destruct ml_pos as (H2 & Hbl & _). destruct (ml_piece k Hk) as (P1 & P2 & _).
    assert (Hd : encode EO (sub rowr (k * c * b) (piece b chunk w k * b)) = sub d0 ((rs + k * c * b) * bl) (piece b chunk w k * b * bl)).
    { assert (Hl' : List.length (sub rowr (k * c * b) (piece b chunk w k * b)) = piece b chunk w k * b).
      { apply sub_length_le. rewrite Hlen, <- Nat.mul_add_distr_r. apply Nat.mul_le_mono_r. exact P1. }
      rewrite <- Hl' at 2. symmetry. apply (DRep_range EO cap v0 d0 _ _ HD0).
      - apply knows_sub. exact Hk0.
      - rewrite Hl'. apply Nat.le_trans with (rs + w * b); [|lia].
        rewrite <- Nat.add_assoc. apply Nat.add_le_mono_l. rewrite <- Nat.mul_add_distr_r. apply Nat.mul_le_mono_r. exact P1. }
    unfold inb. rewrite Hd, nth_error_sub, ml_index.
    rewrite ml_in_len in Hj by exact Hk. apply Nat.ltb_lt in Hj. rewrite Hj. reflexivity.
  Qed.

  Lemma ml_read wd st k j : MapInv wd st -> k < n -> j < List.length (inb k) ->
    map_read EO chunk (file s) rs k j st = Ok (nth j (inb k) x00).
  Proof.
    intros (Hs & _ & _ & Hout & _) Hk Hj. unfold map_read, fs_read_byte. fold ino bl.
    destruct ml_pos as (H2 & Hbl & _). destruct (ml_piece k Hk) as (P1 & P2 & _).
    rewrite Hout.
    - rewrite (ml_in_byte k j Hk Hj). rewrite (nth_error_nth' _ x00 Hj). reflexivity.
    - left. rewrite ml_in_len in Hj by exact Hk.
      apply Nat.lt_le_trans with ((rs + k * chunk) * bl + piece b chunk w k * b * bl); [lia|].
      rewrite <- Nat.mul_add_distr_r. apply Nat.mul_le_mono_r. apply Nat.le_trans with (rs + w * b); [|exact Hws].
      rewrite ml_index, <- Nat.add_assoc. apply Nat.add_le_mono_l. rewrite <- Nat.mul_add_distr_r. apply Nat.mul_le_mono_r. exact P1.
  Qed.

  Lemma ml_comp k : k < n ->
    map_task EO A b chunk (w * b) level rs (w * b * bl) (c * bl) k (inb k) = Ok (out k).
  Proof.
    intros Hk. unfold map_task. destruct ml_pos as (H2 & Hbl & C & Cp & HlenS).
    destruct (ml_piece k Hk) as (P1 & P2 & P3 & P4).
    rewrite ml_size by exact Hk. unfold inb. rewrite (decode_encode EO EL). cbn [rbind].
    rewrite (hash_row_sub A b ltac:(lia) level rowr w) by auto. fold hashed. fold (pc k). fold (out k).
    rewrite Nat.div_mul by lia. rewrite (ml_out_len k Hk). fold bl. rewrite Nat.eqb_refl. cbn [ensure rbind].
    pose proof (map_fit w b c bl k _ ltac:(lia) P3 P1) as Hfit. apply Nat.leb_le in Hfit. rewrite Hfit. reflexivity.
  Qed.

  Lemma ml_out_byte k j : k < n -> j < List.length (out k) -> nth_error (out k) j = nth_error (encode EO hashed) (k * (c * bl) + j).
  Proof.
    intros Hk Hj. destruct ml_pos as (H2 & Hbl & C & Cp & HlenS). destruct (ml_piece k Hk) as (P1 & P2 & P3 & P4).
    assert (Ho : out k = sub (encode EO hashed) (k * c * bl) (piece b chunk w k * bl)).
    { pose proof (DRep_range EO (List.length hashed) (nth_error hashed) (encode EO hashed) (k * c) (pc k) (DRep_encode EO EL hashed)) as R.
      rewrite P4 in R. unfold out. symmetry. apply R; [|lia].
      intros i Hi. unfold pc. rewrite P4 in Hi. rewrite nth_error_sub. apply Nat.ltb_lt in Hi. rewrite Hi. reflexivity. }
    rewrite Ho, nth_error_sub. rewrite ml_out_len in Hj by exact Hk. apply Nat.ltb_lt in Hj. rewrite Hj. f_equal. lia.
  Qed.

  Lemma ml_write wd st k j : MapInv wd st -> k < n -> j < List.length (out k) -> wd k j = false ->
    exists st', map_write EO (file s) ws (c * bl) k j (nth j (out k) x00) st = (Ok tt, st') /\ MapInv (wset2 wd k j) st'.
  Proof.
    intros (Hs & HF & HL & Hlow & Hmid & Hdn) Hk Hj _. destruct st as [s1 f1]. cbn [fst snd] in *. subst s1.
    destruct ml_pos as (H2 & Hbl & C & Cp & HlenS). destruct (ml_piece k Hk) as (P1 & P2 & P3 & P4).
    pose proof (ml_out_len k Hk) as Hol.
    assert (Hq : k * (c * bl) + j < w * bl).
    { apply Nat.lt_le_trans with (k * (c * bl) + piece b chunk w k * bl); [lia|].
      replace (k * (c * bl)) with (k * c * bl) by lia. rewrite <- Nat.mul_add_distr_r. apply Nat.mul_le_mono_r. exact P1. }
    assert (Hin : ws * bl + k * (c * bl) + j + 1 <= cap * bl).
    { pose proof (Nat.mul_le_mono_r _ _ bl Hcap) as M. rewrite Nat.mul_add_distr_r in M. clear - M Hq. lia. }
    assert (Hjc : j < c * bl) by (apply Nat.lt_le_trans with (piece b chunk w k * bl); [lia|apply Nat.mul_le_mono_r; exact P3]).
    unfold map_write, fs_map_write. fold ino bl. cbn [snd fst List.length].
    assert (Hle : ws * bl + k * (c * bl) + j + 1 <= List.length (fs_data f1 ino)) by (rewrite HL; exact Hin).
    replace (ws * bl + k * (c * bl) + j + 1 <=? List.length (fs_data f1 ino)) with true by (symmetry; apply Nat.leb_le; exact Hle).
    rewrite ?orb_true_r. eexists. split; [reflexivity|].
    assert (Hnth : forall p, nth_error (overwrite (fs_data f1 ino) (ws * bl + k * (c * bl) + j) [nth j (out k) x00]) p =
       if p =? ws * bl + (k * (c * bl) + j) then nth_error (encode EO hashed) (k * (c * bl) + j) else nth_error (fs_data f1 ino) p).
    { intros p. rewrite nth_error_overwrite by (clear - Hle; lia). cbn [List.length].
      destruct (p =? ws * bl + (k * (c * bl) + j)) eqn:Q.
      - apply Nat.eqb_eq in Q. rewrite <- ml_out_byte by auto. rewrite (nth_error_nth' _ x00 Hj).
        replace (p <? ws * bl + k * (c * bl) + j) with false by (clear - Q; lia).
        replace (p <? ws * bl + k * (c * bl) + j + 1) with true by (clear - Q; lia).
        replace (p - (ws * bl + k * (c * bl) + j)) with 0 by (clear - Q; lia). reflexivity.
      - apply Nat.eqb_neq in Q. destruct (p <? ws * bl + k * (c * bl) + j) eqn:Q1; [reflexivity|].
        replace (p <? ws * bl + k * (c * bl) + j + 1) with false by (clear - Q Q1; lia). reflexivity. }
    unfold MapInv. cbn [fst snd]. rewrite fs_set_data_data.
    split; [reflexivity|]. split; [eapply fs_frame_trans; [exact HF|apply fs_set_data_frame]|].
    split; [rewrite overwrite_length; [exact HL|cbn [List.length]; clear - Hle; lia]|].
    split; [|split].
    - intros p Hp. rewrite Hnth. replace (p =? ws * bl + (k * (c * bl) + j)) with false; [apply Hlow; exact Hp|].
      symmetry. apply Nat.eqb_neq. intros ->. rewrite Nat.mul_add_distr_r in Hp. clear - Hp Hq. lia.
    - intros q Hq'. rewrite Hnth. destruct (ws * bl + q =? ws * bl + (k * (c * bl) + j)) eqn:Q; [|apply Hmid; exact Hq'].
      right. f_equal. apply Nat.eqb_eq in Q. clear - Q. lia.
    - intros k' j' Hk' Hj' Hwd. rewrite Hnth. destruct (ws * bl + (k' * (c * bl) + j') =? ws * bl + (k * (c * bl) + j)) eqn:Q.
      + f_equal. apply Nat.eqb_eq in Q. clear - Q. lia.
      + apply Hdn; auto. unfold wset2 in Hwd. destruct ((k' =? k) && (j' =? j)) eqn:G; [|exact Hwd].
        apply andb_true_iff in G. destruct G as [G1 G2]. apply Nat.eqb_eq in G1, G2. subst k' j'. rewrite Nat.eqb_refl in Q. discriminate.
  Qed.

  Lemma ml_init : MapInv (fun _ _ => false) (s, f0).
  Proof.
    split; [reflexivity|]. split; [apply fs_frame_refl|]. split; [exact (proj1 HD0)|]. split; [reflexivity|].
    split; [left; reflexivity|]. intros k j _ _ Q. discriminate.
  Qed.

  Lemma ml_unfold run : mmap_layer_by EO A b chunk run file chk (w * b) level rs ws (s, f0) =
    run n (map_start EO chunk chk (w * b) rs) (map_read EO chunk (file s) rs)
      (map_task EO A b chunk (w * b) level rs (w * b * bl) (c * bl)) (map_write EO (file s) ws (c * bl))
      (Nat.min chunk (w * b) * bl) (s, f0).
  Proof.
    unfold mmap_layer_by. rewrite (sbind_ok _ _ (s, f0) (s, f0) (s, f0)) by reflexivity.
    cbn [fst]. unfold fs_map_mut. rewrite HW. rewrite (sbind_ok _ _ (s, f0) tt (s, f0)) by reflexivity.
    rewrite Hdiv, Nat.eqb_refl. unfold ensure. rewrite (sbind_ok _ _ (s, f0) tt (s, f0)) by reflexivity.
    rewrite arity_shift by auto. fold bl c. fold n. rewrite ml_n_eq. reflexivity.
  Qed.

  (* all bytes written: the file is the old one with the hashed row put at ws *)
  Lemma ml_done wd st : MapInv wd st -> (forall k j, k < n -> j < List.length (out k) -> wd k j = true) ->
    fs_data (snd st) ino = overwrite d0 (ws * bl) (encode EO hashed).
  Proof.
    intros (Hs & HF & HL & Hlow & Hmid & Hdn) Hall. destruct ml_pos as (H2 & Hbl & C & Cp & HlenS).
    assert (Hel : List.length (encode EO hashed) = w * bl) by (rewrite (encode_length EO EL), HlenS; reflexivity).
    assert (Hd0 : List.length d0 = cap * bl) by exact (proj1 HD0).
    assert (Hc2 : ws * bl + w * bl <= cap * bl) by (rewrite <- Nat.mul_add_distr_r; apply Nat.mul_le_mono_r; exact Hcap).
    apply nth_error_ext. intros p. rewrite nth_error_overwrite by (rewrite Hd0; clear - Hc2; lia). rewrite Hel.
    destruct (p <? ws * bl) eqn:Q1; [apply Hlow; left; clear - Q1; lia|].
    destruct (p <? ws * bl + w * bl) eqn:Q2; [|apply Hlow; right; rewrite Nat.mul_add_distr_r; clear - Q2; lia].
    set (q := p - ws * bl). assert (Hq : q < w * bl) by (unfold q; clear - Q1 Q2; lia).
    replace p with (ws * bl + q) by (unfold q; clear - Q1; lia).
    assert (Hcb : 0 < c * bl) by (apply Nat.mul_pos_pos; auto).
    pose proof (Nat.div_mod q (c * bl) ltac:(lia)) as Hdm. pose proof (Nat.mod_upper_bound q (c * bl) ltac:(lia)) as Hmo.
    set (k := q / (c * bl)) in *. set (j := q mod (c * bl)) in *.
    assert (Hkc : k * c < w).
    { apply Nat.mul_lt_mono_pos_r with bl; [exact Hbl|]. apply Nat.le_lt_trans with q; [|exact Hq].
      rewrite Hdm. rewrite <- Nat.mul_assoc, Nat.mul_comm. apply Nat.le_add_r. }
    assert (Hkn : k < n) by (apply ml_n; rewrite ml_index; apply Nat.mul_lt_mono_pos_r; [lia|exact Hkc]).
    assert (Hqe : q = k * (c * bl) + j) by (rewrite Hdm at 1; rewrite Nat.mul_comm; reflexivity).
    assert (Hjo : j < List.length (out k)).
    { rewrite ml_out_len by exact Hkn. unfold piece. fold c. apply Nat.min_case_strong with (n := c) (m := w - k * c) ; intros _; [exact Hmo|].
      rewrite Nat.mul_sub_distr_r. rewrite Hqe in Hq. clear - Hq. replace (k * c * bl) with (k * (c * bl)) by lia. lia. }
    rewrite Hqe. apply Hdn; auto.
  Qed.

  Lemma map_layer_data sched :
    exists f', mmap_process_layer EO A b chunk file chk sched (w * b) level rs ws (s, f0) = (Ok tt, (s, f')) /\
      fs_data f' ino = overwrite d0 (ws * bl) (encode EO hashed) /\
      fs_frame (Some (h_ino (file s))) f0 f'.
  Proof.
    unfold mmap_process_layer. rewrite ml_unfold.
    destruct (run_bytes_ok n (Nat.min chunk (w * b) * bl) _ _ _ _ MapInv inb out ml_start ml_read ml_comp ml_write
                (fun k Hk => proj1 (ml_most k Hk)) (fun k Hk => proj2 (ml_most k Hk)) sched (s, f0) ml_init)
      as (wd & [s' f'] & Hrun & HI & Hall).
    assert (s' = s) by exact (proj1 HI). subst s'. exists f'. split; [exact Hrun|].
    split; [exact (ml_done wd _ HI Hall)|exact (proj1 (proj2 HI))].
  Qed.

  Lemma map_layer_ok sched :
    exists f', mmap_process_layer EO A b chunk file chk sched (w * b) level rs ws (s, f0) = (Ok tt, (s, f')) /\
      DRep EO cap (upd v0 ws (hash_row A b level rowr)) (fs_data f' (h_ino (file s))) /\
      fs_frame (Some (h_ino (file s))) f0 f'.
  Proof.
    destruct (map_layer_data sched) as (f' & Hrun & Hdone & HF). exists f'. split; [exact Hrun|]. split; [|exact HF].
    change (h_ino (file s)) with ino. rewrite Hdone.
    apply DRep_write; auto. destruct ml_pos as (_ & _ & _ & _ & ->). exact Hcap.
  Qed.

  (* a layer stopped at any point: only bytes of the row being written have
     changed, each of them old or new *)
  Lemma map_layer_stopped sched :
    exists f', mmap_layer_by EO A b chunk (fun n start rd comp wr _ => run_bytes_until n start rd comp wr sched)
        file chk (w * b) level rs ws (s, f0) = (Ok tt, (s, f')) /\
      fs_frame (Some (h_ino (file s))) f0 f' /\ List.length (fs_data f' (h_ino (file s))) = cap * bl /\
      (forall p, p < ws * bl \/ (ws + w) * bl <= p -> nth_error (fs_data f' (h_ino (file s))) p = nth_error (fs_data f0 (h_ino (file s))) p) /\
      (forall q, q < w * bl -> nth_error (fs_data f' (h_ino (file s))) (ws * bl + q) = nth_error (fs_data f0 (h_ino (file s))) (ws * bl + q) \/
                             nth_error (fs_data f' (h_ino (file s))) (ws * bl + q) = nth_error (encode EO (hash_row A b level rowr)) q).
  Proof.
    rewrite ml_unfold. cbv beta.
    destruct (run_bytes_stopped n _ _ _ _ MapInv inb out ml_start ml_read ml_comp ml_write sched (s, f0) ml_init)
      as (wd & [s' f'] & Hrun & HI). destruct HI as (Hs & H1 & H2 & H3 & H4 & _). cbn [fst snd] in *. subst s'.
    exists f'. split; [exact Hrun|]. auto.
  Qed.
  End Layer.

  (* a row narrower than the arity is refused *)
  Lemma map_layer_bad s f0 cap v0 (rowr : list E) m level rs ws sched :
    DRep EO cap v0 (fs_data f0 (h_ino (file s))) -> knows v0 rs rowr -> rs + m <= cap ->
    List.length rowr = m -> 0 < m < b ->
    chk (s, f0) rs (rs + m) = Ok tt ->
    exists e, mmap_process_layer EO A b chunk file chk sched m level rs ws (s, f0) = (Err e, (s, f0)).
  Proof.
    intros HD Hk Hcap Hl Hm Hchk. pose proof (arity_ge b Hb) as H2. pose proof (bl_pos EO EL) as Hbl. fold bl in Hbl.
    pose proof (chunk_eq b chunk Hb Hchunk Hdiv) as C.
    pose proof (chunk_pos b chunk Hb Hchunk Hdiv) as Cp.
    unfold mmap_process_layer, mmap_layer_by. rewrite (sbind_ok _ _ (s, f0) (s, f0) (s, f0)) by reflexivity.
    cbn [fst]. unfold fs_map_mut. destruct (h_write (file s)); [|eexists; reflexivity].
    rewrite (sbind_ok _ _ (s, f0) tt (s, f0)) by reflexivity.
    rewrite Hdiv, Nat.eqb_refl. unfold ensure at 1. rewrite (sbind_ok _ _ (s, f0) tt (s, f0)) by reflexivity.
    rewrite arity_shift by auto. fold bl.
    assert (Hcb : b <= chunk). { rewrite C. rewrite <- (Nat.mul_1_l b) at 1. apply Nat.mul_le_mono_r. exact Cp. }
    assert (Hn1 : num_chunks chunk m = 1).
    { unfold num_chunks. symmetry. apply Nat.div_unique with (m - 1); lia. }
    assert (Hn2 : 1 <= (m * bl + chunk / b * bl - 1) / (chunk / b * bl)).
    { apply Nat.div_le_lower_bound; [|].
      - assert (0 < chunk / b * bl) by (apply Nat.mul_pos_pos; auto). lia.
      - assert (0 < m * bl) by (apply Nat.mul_pos_pos; lia). lia. }
    rewrite Hn1. rewrite Nat.min_l by exact Hn2.
    pose proof (DRep_range EO cap v0 _ rs rowr HD Hk ltac:(lia)) as Hd. rewrite Hl in Hd. fold bl in Hd.
    assert (Hel : List.length (encode EO rowr) = m * bl) by (rewrite (encode_length EO EL), Hl; reflexivity).
    eexists. apply run_bytes_1_err with (d := encode EO rowr).
    - unfold map_start. rewrite Nat.mul_0_l, Nat.add_0_r.
      replace (Nat.min chunk (rs + m - rs)) with m by lia. rewrite Hchk, Hel. reflexivity.
    - intros j Hj. unfold map_read, fs_read_byte. rewrite Nat.mul_0_l, Nat.add_0_r. fold bl. cbn [snd].
      assert (nth_error (fs_data f0 (h_ino (file s))) (rs * bl + j) = nth_error (encode EO rowr) j) as ->.
      { rewrite <- Hd, nth_error_sub. rewrite Hel in Hj. apply Nat.ltb_lt in Hj. rewrite Hj. reflexivity. }
      rewrite (nth_error_nth' _ x00 Hj). reflexivity.
    - unfold map_task. rewrite Nat.mul_0_l, Nat.add_0_r.
      replace (Nat.min chunk (rs + m - rs)) with m by lia. rewrite (decode_encode EO EL). cbn [rbind].
      rewrite Nat.div_small by lia.
      assert (Hh : hash_row A b level rowr = [h_node A level rowr]).
      { unfold hash_row. rewrite chunks_cons; [|lia|destruct rowr; simpl in *; [lia|congruence]].
        rewrite firstn_all2, skipn_all2 by lia. rewrite chunks_nil. reflexivity. }
      rewrite Hh.
      replace (List.length (encode EO [h_node A level rowr]) =? 0 * e_byte_len EO) with false; [reflexivity|].
      rewrite encode_length by auto. simpl List.length. fold bl. lia.
    - rewrite Hel. apply Nat.mul_le_mono_r. lia.
  Qed.
End MapLayer.
