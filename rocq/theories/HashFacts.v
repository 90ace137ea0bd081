(* Byte streams of hashable values; types with injective streams. *)
From Coq Require Import String List Arith NArith Bool Lia Init.Byte ZifyBool ZifyNat.
From Verif Require Import Base Element Hash ListFacts.
Import ListNotations.

(* ---- the bytes a value feeds to the hasher ---- *)
Definition stream (h : hval) : list byte := concat (feed h).

(* ---- types of hashable values ---- *)
Inductive hty : Type :=
| TInt (w : nat)          (* integers of w bytes *)
| TArr (n : nat)          (* [u8; n] *)
| TVec                    (* Vec<u8> *)
| TBool | TChar
| TStr                    (* str, String *)
| TTup (ts : list hty)
| TSlice (t : hty).       (* [t] *)

(* slices of integers and of byte arrays use an overridden hash_slice *)
Definition packed (t : hty) : bool := match t with TInt _ | TArr _ => true | _ => false end.

Fixpoint has_type (t : hty) (h : hval) {struct t} : Prop :=
  match t, h with
  | TInt w, HInt w' v => w' = w /\ (v < 256 ^ N.of_nat w)%N
  | TArr n, HBytes bs => List.length bs = n
  | TVec, HBytes _ => True
  | TBool, HBool _ => True
  | TChar, HChar c => (c < 256 ^ 4)%N
  | TStr, HStr _ => True
  | TTup ts, HTuple l =>
      (fix go (ts : list hty) (l : list hval) : Prop :=
         match ts, l with
         | [], [] => True
         | t :: ts, x :: l => has_type t x /\ go ts l
         | _, _ => False
         end) ts l
  | TSlice (TInt w), HIntSlice w' l => w' = w /\ Forall (fun v => (v < 256 ^ N.of_nat w)%N) l
  | TSlice (TArr n), HBytesSlice l => Forall (fun bs => List.length bs = n) l
  | TSlice t, HSlice l => packed t = false /\ Forall (has_type t) l
  | _, _ => False
  end.
Fixpoint tup_type (ts : list hty) (l : list hval) : Prop :=
  match ts, l with
  | [], [] => True
  | t :: ts, x :: l => has_type t x /\ tup_type ts l
  | _, _ => False
  end.

(* stream length shared by all values of a type *)
Fixpoint fixed (t : hty) : option nat :=
  match t with
  | TInt w => Some w
  | TArr n => Some n
  | TBool => Some 1
  | TChar => Some 4
  | TTup ts =>
      (fix go (ts : list hty) : option nat :=
         match ts with
         | [] => Some 0
         | t :: ts => match fixed t, go ts with Some a, Some b => Some (a + b) | _, _ => None end
         end) ts
  | TVec | TStr | TSlice _ => None
  end.

(* types whose streams can be read back: everything before the last component of a
   tuple has a fixed size, slices have elements of a fixed non-zero size *)
Fixpoint readable (t : hty) : bool :=
  match t with
  | TInt _ | TArr _ | TVec | TBool | TChar | TStr => true
  | TTup ts =>
      (fix go (ts : list hty) : bool :=
         match ts with
         | [] => true
         | [t] => readable t
         | t :: ts => readable t && match fixed t with Some _ => true | None => false end && go ts
         end) ts
  | TSlice t => readable t && match fixed t with Some (S _) => true | _ => false end
  end.

Definition hty_ind' (P : hty -> Prop)
  (HI : forall w, P (TInt w)) (HA : forall n, P (TArr n)) (HV : P TVec) (HB : P TBool) (HC : P TChar) (HS : P TStr)
  (HT : forall ts, Forall P ts -> P (TTup ts)) (HL : forall t, P t -> P (TSlice t)) : forall t, P t :=
  fix go (t : hty) : P t :=
    match t with
    | TInt w => HI w | TArr n => HA n | TVec => HV | TBool => HB | TChar => HC | TStr => HS
    | TTup ts => HT ts ((fix gs (ts : list hty) : Forall P ts := match ts with [] => Forall_nil P | t :: ts => Forall_cons t (go t) (gs ts) end) ts)
    | TSlice t => HL t (go t)
    end.

(* ---- integers ---- *)
Lemma byte_of_N_inj a b : byte_of_N a = byte_of_N b -> (a mod 256 = b mod 256)%N.
Proof.
  unfold byte_of_N. intros H.
  assert (Ha : (a mod 256 < 256)%N) by (apply N.mod_lt; lia). assert (Hb : (b mod 256 < 256)%N) by (apply N.mod_lt; lia).
  destruct (Byte.of_N (a mod 256)) as [x|] eqn:Ea; [|apply Byte.of_N_None_iff in Ea; lia].
  destruct (Byte.of_N (b mod 256)) as [y|] eqn:Eb; [|apply Byte.of_N_None_iff in Eb; lia].
  subst y. apply Byte.to_of_N in Ea. apply Byte.to_of_N in Eb. congruence.
Qed.
Lemma le_bytes_length w : forall v, List.length (le_bytes w v) = w.
Proof. induction w as [|w IH]; intros v; cbn [le_bytes List.length]; auto. Qed.
Lemma le_bytes_inj w : forall a b, (a < 256 ^ N.of_nat w)%N -> (b < 256 ^ N.of_nat w)%N -> le_bytes w a = le_bytes w b -> a = b.
Proof.
  induction w as [|w IH]; intros a b Ha Hb H.
  - cbn in Ha, Hb. lia.
  - cbn [le_bytes] in H. injection H as H1 H2. apply byte_of_N_inj in H1.
    rewrite Nat2N.inj_succ, N.pow_succ_r' in Ha, Hb.
    assert (Q : (a / 256 = b / 256)%N).
    { apply IH; auto; apply N.div_lt_upper_bound; lia. }
    rewrite (N.div_mod a 256), (N.div_mod b 256) by lia. rewrite H1, Q. reflexivity.
Qed.

Lemma app_inj_len {X} (a b c d : list X) : List.length a = List.length c -> a ++ b = c ++ d -> a = c /\ b = d.
Proof.
  revert c. induction a as [|x a IH]; intros [|y c] HL H; try discriminate HL; cbn in *; auto.
  injection H as -> H. injection HL as HL. destruct (IH c HL H) as [-> ->]. auto.
Qed.
(* concatenations of pieces of one non-zero size *)
Lemma concat_inj_len {X} n : 0 < n -> forall (l d : list (list X)),
  Forall (fun x => List.length x = n) l -> Forall (fun x => List.length x = n) d -> concat l = concat d -> l = d.
Proof.
  intros Hn. induction l as [|x l IH]; intros [|y d] Hl Hd H; auto.
  - inversion Hd; subst. destruct y; cbn in *; [lia|discriminate].
  - inversion Hl; subst. destruct x; cbn in *; [lia|discriminate].
  - inversion Hl; inversion Hd; subst. cbn [concat] in H. apply app_inj_len in H; [|congruence]. destruct H as [-> H].
    f_equal. apply IH; auto.
Qed.

(* ---- streams ---- *)
Lemma stream_tuple l : stream (HTuple l) = flat_map stream l.
Proof. unfold stream. cbn [feed]. induction l as [|x l IH]; cbn [flat_map]; auto. rewrite concat_app, IH. reflexivity. Qed.
Lemma stream_slice l : stream (HSlice l) = flat_map stream l.
Proof. unfold stream. cbn [feed]. induction l as [|x l IH]; cbn [flat_map]; auto. rewrite concat_app, IH. reflexivity. Qed.
Lemma stream_one (bs : list byte) : concat [bs] = bs.
Proof. cbn. apply app_nil_r. Qed.

Lemma has_type_tup ts l : has_type (TTup ts) (HTuple l) <-> tup_type ts l.
Proof.
  cbn [has_type]. revert l. induction ts as [|t ts IH]; intros [|x l]; cbn [tup_type]; try tauto.
Qed.
Fixpoint fixed_all (ts : list hty) : option nat :=
  match ts with
  | [] => Some 0
  | t :: ts => match fixed t, fixed_all ts with Some a, Some b => Some (a + b) | _, _ => None end
  end.
Lemma fixed_tup ts : fixed (TTup ts) = fixed_all ts.
Proof. induction ts as [|t ts IH]; [reflexivity|]. cbn [fixed_all]. rewrite <- IH. reflexivity. Qed.
Fixpoint readable_all (ts : list hty) : bool :=
  match ts with
  | [] => true
  | [t] => readable t
  | t :: ts => readable t && match fixed t with Some _ => true | None => false end && readable_all ts
  end.
Lemma readable_tup ts : readable (TTup ts) = readable_all ts.
Proof. induction ts as [|t [|t' ts] IH]; [reflexivity|reflexivity|]. change (readable_all (t :: t' :: ts)) with (readable t && match fixed t with Some _ => true | None => false end && readable_all (t' :: ts)). rewrite <- IH. reflexivity. Qed.
Lemma has_type_tup_inv ts h : has_type (TTup ts) h -> exists l, h = HTuple l /\ tup_type ts l.
Proof. destruct h; cbn [has_type]; try contradiction. intros H. exists l. split; [reflexivity|]. apply has_type_tup. exact H. Qed.

Lemma fixed_length t : forall n h, fixed t = Some n -> has_type t h -> List.length (stream h) = n.
Proof.
  induction t as [w|m| | | | |ts IH|t IH] using hty_ind'; intros n h HF HT; try discriminate HF.
  - destruct h; try contradiction. destruct HT as [-> _]. injection HF as <-. unfold stream. cbn [feed]. rewrite stream_one. apply le_bytes_length.
  - destruct h; try contradiction. injection HF as <-. unfold stream. cbn [feed]. rewrite stream_one. exact HT.
  - destruct h; try contradiction. injection HF as <-. reflexivity.
  - destruct h; try contradiction. injection HF as <-. reflexivity.
  - apply has_type_tup_inv in HT. destruct HT as (l & -> & HT). rewrite fixed_tup in HF. rewrite stream_tuple.
    revert n l HF HT. induction IH as [|t ts Ht _ IHs]; intros n [|x l] HF HT; try contradiction.
    + injection HF as <-. reflexivity.
    + cbn [fixed_all] in HF. destruct HT as [HT1 HT2]. destruct (fixed t) as [a|] eqn:Ea; try discriminate.
      destruct (fixed_all ts) as [c|] eqn:Ec; try discriminate. injection HF as <-. cbn [flat_map].
      rewrite app_length, (Ht a x eq_refl HT1), (IHs c l eq_refl HT2). reflexivity.
Qed.

Lemma slice_inj t n : 0 < n -> fixed t = Some n ->
  (forall a b, has_type t a -> has_type t b -> stream a = stream b -> a = b) ->
  forall l d, Forall (has_type t) l -> Forall (has_type t) d -> flat_map stream l = flat_map stream d -> l = d.
Proof.
  intros Hn HF HI. induction l as [|x l IH]; intros [|y d] Hl Hd H; auto.
  - inversion Hd; subst. cbn [flat_map] in H. pose proof (fixed_length t n y HF H2). destruct (stream y); cbn in *; [lia|discriminate].
  - inversion Hl; subst. cbn [flat_map] in H. pose proof (fixed_length t n x HF H2). destruct (stream x); cbn in *; [lia|discriminate].
  - inversion Hl; inversion Hd; subst. cbn [flat_map] in H. apply app_inj_len in H.
    + destruct H as [H H']. f_equal; [apply HI; auto|apply IH; auto].
    + rewrite (fixed_length t n x), (fixed_length t n y); auto.
Qed.

Lemma has_type_slice t h : has_type (TSlice t) h ->
  (exists w l, t = TInt w /\ h = HIntSlice w l /\ Forall (fun v => (v < 256 ^ N.of_nat w)%N) l) \/
  (exists n l, t = TArr n /\ h = HBytesSlice l /\ Forall (fun bs => List.length bs = n) l) \/
  (exists l, packed t = false /\ h = HSlice l /\ Forall (has_type t) l).
Proof.
  intros H. destruct t; destruct h; cbn [has_type] in H; try contradiction; try (destruct H; discriminate).
  - left. destruct H as [-> H]. eauto.
  - right. left. eauto.
  - right. right. eexists. split; [reflexivity|]. split; [reflexivity|apply H].
  - right. right. eexists. split; [reflexivity|]. split; [reflexivity|apply H].
  - right. right. eexists. split; [reflexivity|]. split; [reflexivity|apply H].
  - right. right. eexists. split; [reflexivity|]. split; [reflexivity|apply H].
  - right. right. eexists. split; [reflexivity|]. split; [reflexivity|apply H].
  - right. right. eexists. split; [reflexivity|]. split; [reflexivity|apply H].
Qed.

Lemma stream_inj t : readable t = true -> forall a b, has_type t a -> has_type t b -> stream a = stream b -> a = b.
Proof.
  induction t as [w|m| | | | |ts IH|t IH] using hty_ind'; intros HR a b Ha Hb H.
  - destruct a, b; try contradiction. destruct Ha as [-> Ha], Hb as [-> Hb]. unfold stream in H. cbn [feed] in H. rewrite !stream_one in H.
    f_equal. eapply le_bytes_inj; eauto.
  - destruct a, b; try contradiction. unfold stream in H. cbn [feed] in H. rewrite !stream_one in H. congruence.
  - destruct a, b; try contradiction. unfold stream in H. cbn [feed] in H. rewrite !stream_one in H. congruence.
  - destruct a as [| |[]| | | | | | |], b as [| |[]| | | | | | |]; try contradiction; auto; discriminate H.
  - destruct a, b; try contradiction. unfold stream in H. cbn [feed] in H. rewrite !stream_one in H. f_equal. eapply (le_bytes_inj 4); eauto.
  - destruct a, b; try contradiction. unfold stream in H. cbn [feed] in H. rewrite !stream_one in H. congruence.
  - apply has_type_tup_inv in Ha, Hb. destruct Ha as (l & -> & Ha), Hb as (d & -> & Hb). rewrite readable_tup in HR.
    rewrite !stream_tuple in H. f_equal. revert l d Ha Hb HR H. induction IH as [|t ts Ht HF IHs]; intros [|x l] [|y d] Ha Hb HR H; try contradiction; auto.
    destruct Ha as [Ha1 Ha2], Hb as [Hb1 Hb2]. cbn [flat_map] in H. destruct ts as [|t' ts].
    + destruct l; [|contradiction]. destruct d; [|contradiction]. cbn [flat_map] in H. rewrite !app_nil_r in H. f_equal. apply Ht; auto.
    + cbn [readable_all] in HR. apply andb_true_iff in HR. destruct HR as [HR1 HR2]. apply andb_true_iff in HR1. destruct HR1 as [HR1 HR3].
      destruct (fixed t) as [n|] eqn:En; [|discriminate].
      apply app_inj_len in H; [|rewrite (fixed_length t n x), (fixed_length t n y); auto]. destruct H as [H1 H2].
      f_equal; [apply Ht; auto|apply IHs; auto].
  - cbn [readable] in HR. apply andb_true_iff in HR. destruct HR as [HR HR2]. destruct (fixed t) as [[|n]|] eqn:En; try discriminate.
    apply has_type_slice in Ha, Hb.
    destruct Ha as [(w & l & -> & -> & Ha)|[(m & l & -> & -> & Ha)|(l & Hp & -> & Ha)]],
             Hb as [(w' & d & E & -> & Hb)|[(m' & d & E & -> & Hb)|(d & Hp' & -> & Hb)]]; try discriminate; try (rewrite E in Hp; discriminate); try (rewrite E in Hp'; discriminate).
    + injection E as <-. injection En as ->. f_equal. unfold stream in H. cbn [feed] in H. rewrite !stream_one, !flat_map_concat_map in H.
      apply (concat_inj_len (S n)) in H; [|lia| |].
      2,3: apply Forall_map; apply Forall_forall; intros; apply le_bytes_length.
      clear - H Ha Hb. revert d Hb H. induction Ha as [|x l Hx _ IHl]; intros [|y d] Hb H; try discriminate; auto.
      cbn [map] in H. injection H as H1 H2. inversion Hb; subst. f_equal; [eapply (le_bytes_inj (S n)); eauto; cbn [le_bytes]; congruence|apply IHl; auto].
    + injection E as <-. injection En as ->. f_equal. unfold stream in H. cbn [feed] in H. rewrite !stream_one in H.
      apply (concat_inj_len (S n)) in H; auto. lia.
    + f_equal. rewrite !stream_slice in H. eapply (slice_inj t (S n)); eauto. lia.
Qed.
