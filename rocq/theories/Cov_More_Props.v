(** C51, C52, C81: reconstruction, denoising, random matrices. *)
From Coq Require Import Reals Lra Psatz ZArith List Arith Bool Lia Permutation.
From Verif Require Import Base Num Sums Lin Sim_Model Cov_Model Cov_Spec Cov_Props Cov_Eig_Props.
Import ListNotations.
Open Scope R_scope.

(** ** C51 *)
Lemma nmul3_swap : forall a v b, nmul a (nmul v b) = nmul b (nmul v a).
Proof.
  intros [a| | |] [v| | |] [b| | |]; cbn [nmul]; try reflexivity; try (f_equal; ring);
    unfold sgn_inf, rltb; repeat (destruct (Rlt_dec _ _); cbn [nmul sgn_inf]; unfold sgn_inf, rltb); try reflexivity; try (f_equal; ring); try nra;
    exfalso; (assert (Z : v = 0) by lra); rewrite Z in *; lra.
Qed.

(** Whatever the eigenvalues and vectors, the result is a symmetric matrix with ones on the diagonal and entries between -1 and 1
    (or NaN). *)
Theorem C51_eig_to_cor : forall values vectors, length values = ncol vectors ->
  exists c, eig_to_cor values vectors = Ok c /\ nrow c = nrow vectors /\ ncol c = nrow vectors
   /\ forall i j, at2 c i i = Fin 1 /\ at2 c i j = at2 c j i /\ bounded (at2 c i j).
Proof.
  intros values vectors H. unfold eig_to_cor. rewrite H, Nat.eqb_refl. cbn [orb negb]. eexists. split; [reflexivity|]. cbn [nrow ncol at2]. split; [auto|]. split; [auto|].
  intros i j. unfold fill_diagonal. rewrite Nat.eqb_refl. split; [auto|]. rewrite (Nat.eqb_sym j i). destruct (Nat.eqb i j); split; try apply clip1_bounded.
  - reflexivity.
  - right. exists 1. split; [reflexivity|lra].
  - f_equal. f_equal. apply map_ext. intros l. apply nmul3_swap.
Qed.
Print Assumptions C51_eig_to_cor.

Lemma rsum_perm : forall (l l' : list R), Permutation l l' -> rsum l = rsum l'.
Proof. intros l l' P. induction P; cbn [rsum fold_right]; fold rsum; try unfold rsum in *; lra. Qed.
Lemma sumn_perm : forall n idx (f : nat -> R), Permutation idx (seq 0 n) -> sumn n (fun j => f (nth j idx 0%nat)) = sumn n f.
Proof.
  intros n idx f P. unfold sumn. assert (L : length idx = n) by (rewrite (Permutation_length P); apply seq_length).
  transitivity (rsum (map f idx)); [|apply rsum_perm, Permutation_map, P].
  assert (E : map (fun j => nth j idx 0%nat) (seq 0 n) = idx).
  { rewrite <- L. clear. induction idx as [|x l IH]; [reflexivity|]. cbn [length seq map nth]. f_equal. rewrite <- seq_shift, map_map. exact IH. }
  transitivity (rsum (map f (map (fun j => nth j idx 0%nat) (seq 0 n)))); [rewrite map_map; reflexivity|rewrite E; reflexivity].
Qed.

Lemma eig_to_cor_real : forall n U w V, length w = n -> holds_matrix V n U ->
  exists c, eig_to_cor (map Fin w) V = Ok c /\ nrow c = n /\ ncol c = n
   /\ (forall i, at2 c i i = Fin 1) /\ (forall i j, (i < n)%nat -> (j < n)%nat -> i <> j -> at2 c i j = clip1 (Fin (spectral n U (fun k => nth k w 0) i j))).
Proof.
  intros n U w V HL (Rv & Cv & HV). unfold eig_to_cor. rewrite map_length, HL, Cv, Nat.eqb_refl. cbn [orb negb]. eexists. split; [reflexivity|]. cbn [nrow ncol at2]. split; [auto|]. split; [auto|].
  split; [intros i; unfold fill_diagonal; rewrite Nat.eqb_refl; reflexivity|]. intros i j Hi Hj Hij. unfold fill_diagonal. rewrite (proj2 (Nat.eqb_neq i j)) by auto. f_equal. unfold spectral, sumn. rewrite <- nsum_fin, map_map. f_equal.
  apply map_ext_in. intros l Hl. apply in_seq in Hl. rewrite !HV by lia.
  assert (E : (if Nat.eqb n 1 then nth 0 (map Fin w) NaN else nth l (map Fin w) NaN) = Fin (nth l w 0)).
  { destruct (Nat.eqb_spec n 1) as [E|E].
    - assert (l = 0%nat) by lia. subst l. destruct w; [cbn in HL; lia|reflexivity].
    - rewrite (nth_indep _ NaN (Fin 0)) by (rewrite map_length; lia). apply map_nth. }
  rewrite E. cbn [nmul]. f_equal. ring.
Qed.
Lemma corr_entry_bound : forall n A i j, correlation_matrix n A -> (i < n)%nat -> (j < n)%nat -> -1 <= A i j <= 1.
Proof. intros n A i j [P D] Hi Hj. destruct (psd_minor n A i j P Hi Hj) as [_ M]. rewrite !D in M by auto. nra. Qed.
Lemma reconstruct : forall n U w V A, length w = n -> holds_matrix V n U -> meq n A (spectral n U (fun k => nth k w 0)) ->
  (forall i, (i < n)%nat -> A i i = 1) -> (forall i j, (i < n)%nat -> (j < n)%nat -> -1 <= A i j <= 1) ->
  exists c, eig_to_cor (map Fin w) V = Ok c /\ holds_matrix c n A.
Proof.
  intros n U w V A HL HV HA HD HB. destruct (eig_to_cor_real n U w V HL HV) as (c & E & Rc & Cc & D & O). exists c. split; [exact E|]. split; [auto|]. split; [auto|].
  intros i j Hi Hj. destruct (Nat.eq_dec i j) as [<-|Hij]; [rewrite D, HD by auto; reflexivity|]. rewrite O by auto. rewrite <- HA by auto. apply clip1_id. auto.
Qed.

(** positions of the result of [cor_to_eig] *)
Lemma map_take : forall idx l, (forall i, In i idx -> (i < length l)%nat) -> take idx (map Fin l) = map Fin (map (fun i => nth i l 0) idx).
Proof. intros idx l H. unfold take. rewrite map_map. apply map_ext_in. intros i Hi. rewrite (nth_indep _ NaN (Fin 0)) by (rewrite map_length; auto). apply map_nth. Qed.
Lemma sorts_facts : forall argsort l, sorts argsort -> let p := argsort (map Fin l) in
  length p = length l /\ NoDup p /\ (forall i, In i p <-> (i < length l)%nat).
Proof.
  intros argsort l Hs p. destruct (Hs l) as [P _]. fold p in P. split; [rewrite (Permutation_length P); apply seq_length|]. split; [apply (Permutation_NoDup (Permutation_sym P)), seq_NoDup|].
  intros i. split; [intros H; apply (Permutation_in _ P), in_seq in H; lia|intros H; apply (Permutation_in _ (Permutation_sym P)), in_seq; lia].
Qed.
Lemma rev_sorted_descending : forall argsort l s, sorts argsort -> descending (map (fun i => nth i l 0) (rev (skipn s (argsort (map Fin l))))).
Proof.
  intros argsort l s Hs. destruct (sorts_facts argsort l Hs) as (L & _ & _). destruct (Hs l) as [_ So]. set (p := argsort (map Fin l)) in *.
  intros i j Hij Hj. rewrite map_length, rev_length, skipn_length in Hj.
  assert (V : forall k, (k < length p - s)%nat -> nth k (map (fun i => nth i l 0) (rev (skipn s p))) 0 = nth (nth (s + (length p - s - S k)) p 0%nat) l 0).
  { intros k Hk. rewrite (nth_indep _ 0 (nth 0%nat l 0)) by (rewrite map_length, rev_length, skipn_length; lia). rewrite (map_nth (fun i => nth i l 0) _ 0%nat k). rewrite rev_nth by (rewrite skipn_length; lia). rewrite skipn_length, nth_skipn'. reflexivity. }
  rewrite !V by lia. apply So; lia.
Qed.
Lemma NoDup_skipn : forall A s (l : list A), NoDup l -> NoDup (skipn s l).
Proof. intros A s. induction s as [|s IH]; intros l H; [auto|]. destruct l; [auto|]. inversion H; subst. cbn. auto. Qed.
Lemma In_skipn : forall A s (l : list A) x, In x (skipn s l) -> In x l.
Proof. intros A s. induction s as [|s IH]; intros l x H; [auto|]. destruct l; [auto|]. right. apply IH. auto. Qed.

(** Eigenvalues and eigenvectors come back paired: position j holds eigenvalue and column idx_j of the decomposition, for distinct
    positions idx.  Without k (or with k = 0) all are returned, with k > 0 the min(k,n) largest, with k < 0 the n-|k| largest; with
    sorting, or with k, the eigenvalues are in descending order. *)
Theorem C51_cor_to_eig : forall eigh argsort cor sort k l V, sorts argsort -> eigh cor = Ok (map Fin l, V) -> ncol V = length l ->
  let n := length l in
  let m := match k with Some kk => if (kk =? 0)%Z then n else if (kk <? 0)%Z then (n - Z.to_nat (- kk))%nat else Nat.min (Z.to_nat kk) n | None => n end in
  exists idx V', cor_to_eig eigh argsort cor sort k = Ok (map Fin (map (fun i => nth i l 0) idx), V')
   /\ length idx = m /\ NoDup idx /\ (forall i, In i idx -> (i < n)%nat)
   /\ nrow V' = nrow V /\ ncol V' = m /\ (forall i j, (j < m)%nat -> at2 V' i j = at2 V i (nth j idx 0%nat))
   /\ (forall a b, In a idx -> (b < n)%nat -> ~ In b idx -> nth b l 0 <= nth a l 0)
   /\ (sort = true \/ (exists kk, k = Some kk /\ kk <> 0%Z) -> descending (map (fun i => nth i l 0) idx)).
Proof.
  intros eigh argsort cor sort k l V Hs He HV n m. unfold cor_to_eig. rewrite He. cbn [bind].
  (* the values after the first step *)
  assert (First : exists idx1 V1,
     match k with
      | Some kk => if (kk =? 0)%Z then (map Fin l, V) else let order := argsort (map Fin l) in let idx := rev (skipn (slice_start (length order) (- kk)) order) in (take idx (map Fin l), take_cols idx V)
      | None => (map Fin l, V) end = (map Fin (map (fun i => nth i l 0) idx1), V1)
     /\ length idx1 = m /\ NoDup idx1 /\ (forall i, In i idx1 -> (i < n)%nat) /\ nrow V1 = nrow V /\ ncol V1 = m /\ (forall i j, (j < m)%nat -> at2 V1 i j = at2 V i (nth j idx1 0%nat))
     /\ (forall a b, In a idx1 -> (b < n)%nat -> ~ In b idx1 -> nth b l 0 <= nth a l 0)
     /\ ((exists kk, k = Some kk /\ kk <> 0%Z) -> descending (map (fun i => nth i l 0) idx1))).
  { assert (Plain : m = n -> exists idx1 V1, (map Fin l, V) = (map Fin (map (fun i => nth i l 0) idx1), V1)
     /\ length idx1 = m /\ NoDup idx1 /\ (forall i, In i idx1 -> (i < n)%nat) /\ nrow V1 = nrow V /\ ncol V1 = m /\ (forall i j, (j < m)%nat -> at2 V1 i j = at2 V i (nth j idx1 0%nat))
     /\ (forall a b, In a idx1 -> (b < n)%nat -> ~ In b idx1 -> nth b l 0 <= nth a l 0)).
    { intros Em. exists (seq 0 n), V. assert (E : map (fun i => nth i l 0) (seq 0 n) = l).
      { unfold n. clear. induction l as [|x l IH]; [reflexivity|]. cbn [length seq map nth]. f_equal. rewrite <- seq_shift, map_map. exact IH. }
      rewrite E. split; [reflexivity|]. split; [rewrite seq_length; auto|]. split; [apply seq_NoDup|]. split; [intros i Hi; apply in_seq in Hi; lia|]. split; [auto|]. split; [rewrite HV; auto|]. split.
      - intros i j Hj. rewrite seq_nth by lia. reflexivity.
      - intros a b _ Hb Hn. exfalso. apply Hn. apply in_seq. lia. }
    destruct k as [kk|].
    - destruct (Z.eqb_spec kk 0) as [E0|E0].
      + subst kk. destruct (Plain eq_refl) as (idx1 & V1 & H1 & H2 & H3 & H4 & H5 & H6 & H7 & H8). exists idx1, V1. split; [auto|]. split; [auto|]. split; [auto|]. split; [auto|]. split; [auto|]. split; [auto|]. split; [auto|]. split; [auto|].
        intros (kk & K1 & K2). injection K1 as <-. congruence.
      + destruct (sorts_facts argsort l Hs) as (L & ND & In1). set (p := argsort (map Fin l)) in *. set (s := slice_start (length p) (- kk)).
        assert (Em : m = (n - s)%nat).
        { unfold m, s, slice_start. rewrite L. fold n. destruct (Z.eqb_spec kk 0); [congruence|]. destruct (Z.ltb_spec kk 0), (Z.ltb_spec (- kk) 0); lia. }
        assert (Hs' : (s <= n)%nat) by (unfold s; rewrite L; apply slice_start_le).
        exists (rev (skipn s p)), (take_cols (rev (skipn s p)) V). cbv zeta.
        rewrite map_take by (intros i Hi; apply in_rev, In_skipn in Hi; apply In1; auto). split; [reflexivity|].
        split; [rewrite rev_length, skipn_length, L; auto|]. split; [apply NoDup_rev, NoDup_skipn; auto|]. split; [intros i Hi; apply in_rev, In_skipn in Hi; apply In1; auto|].
        cbn [take_cols nrow ncol at2]. split; [auto|]. split; [rewrite rev_length, skipn_length, L; auto|]. split; [reflexivity|]. split.
        * intros a b Ha Hb Hn. destruct (Hs l) as [_ So]. fold p in So. rewrite <- in_rev in Ha, Hn.
          apply (In_nth _ _ 0%nat) in Ha as (i & Hi & <-). rewrite skipn_length in Hi. rewrite nth_skipn'.
          assert (Hbp : In b p) by (apply In1; auto). apply (In_nth _ _ 0%nat) in Hbp as (j & Hj & <-).
          assert (Jl : (j < s)%nat). { destruct (Nat.lt_ge_cases j s); [auto|]. exfalso. apply Hn. replace j with (s + (j - s))%nat by lia. rewrite <- nth_skipn'. apply nth_In. rewrite skipn_length. lia. }
          apply So; lia.
        * intros _. apply rev_sorted_descending; auto.
    - destruct (Plain eq_refl) as (idx1 & V1 & H1 & H2 & H3 & H4 & H5 & H6 & H7 & H8). exists idx1, V1. split; [auto|]. split; [auto|]. split; [auto|]. split; [auto|]. split; [auto|]. split; [auto|]. split; [auto|]. split; [auto|].
      intros (kk & K1 & K2). discriminate. }
  cbv zeta in First |- *. destruct First as (idx1 & V1 & -> & L1 & N1 & I1 & R1 & C1 & A1 & B1 & D1).
  destruct sort.
  - set (l1 := map (fun i => nth i l 0) idx1). assert (Ll : length l1 = m) by (unfold l1; rewrite map_length; auto).
    destruct (sorts_facts argsort l1 Hs) as (L & ND & In1). set (q := argsort (map Fin l1)) in *.
    exists (map (fun j => nth j idx1 0%nat) (rev q)), (take_cols (rev q) V1).
    rewrite map_take by (intros i Hi; apply in_rev in Hi; apply In1; auto).
    assert (Eq : map (fun i => nth i l1 0) (rev q) = map (fun i => nth i l 0) (map (fun j => nth j idx1 0%nat) (rev q))).
    { rewrite map_map. apply map_ext_in. intros j Hj. apply in_rev, In1 in Hj. unfold l1 in *. rewrite map_length in Hj. rewrite (nth_indep _ 0 (nth 0%nat l 0)) by (rewrite map_length; auto). apply (map_nth (fun i => nth i l 0)). }
    split; [rewrite Eq; reflexivity|]. split; [rewrite map_length, rev_length, L; auto|].
    assert (Inj : forall x y, (x < m)%nat -> (y < m)%nat -> nth x idx1 0%nat = nth y idx1 0%nat -> x = y) by (intros x y Hx Hy He'; apply (proj1 (NoDup_nth idx1 0%nat) N1); auto; lia).
    split.
    { assert (G : forall r, NoDup r -> (forall x, In x r -> (x < m)%nat) -> NoDup (map (fun j => nth j idx1 0%nat) r)).
      { induction r as [|x r IH]; intros Hr Hx; [constructor|]. inversion Hr; subst. cbn [map]. constructor.
        - intros Hin. apply in_map_iff in Hin as (y & Hy & Hyr). apply Inj in Hy; [subst; auto|apply Hx; right; auto|apply Hx; left; auto].
        - apply IH; auto. intros; apply Hx; right; auto. }
      apply G; [apply NoDup_rev; auto|]. intros x Hx. apply in_rev, In1 in Hx. lia. }
    split; [intros i Hi; apply in_map_iff in Hi as (j & <- & Hj); apply in_rev, In1 in Hj; apply I1, nth_In; lia|].
    cbn [take_cols nrow ncol at2]. split; [auto|]. split; [rewrite rev_length, L; auto|]. split.
    { intros i j Hj. assert (Lr : length (rev q) = m) by (rewrite rev_length, L; auto). rewrite A1 by (assert (X : In (nth j (rev q) 0%nat) (rev q)) by (apply nth_In; lia); apply in_rev, In1 in X; lia).
      rewrite (nth_indep (map _ _) 0%nat (nth 0%nat idx1 0%nat)) by (rewrite map_length; lia). rewrite (map_nth (fun j => nth j idx1 0%nat)). reflexivity. }
    split.
    { intros a b Ha Hb Hn. apply in_map_iff in Ha as (j & <- & Hj). apply in_rev, In1 in Hj. apply B1; [apply nth_In; lia|auto|].
      intros Hin. apply Hn. apply (In_nth _ _ 0%nat) in Hin as (x & Hx & <-). apply in_map_iff. exists x. split; [auto|]. rewrite <- in_rev. apply In1. lia. }
    intros _. rewrite <- Eq. pose proof (rev_sorted_descending argsort l1 0 Hs) as Q. cbn [skipn] in Q. exact Q.
  - exists idx1, V1. split; [reflexivity|]. split; [auto|]. split; [auto|]. split; [auto|]. split; [auto|]. split; [auto|]. split; [auto|]. split; [auto|]. intros [H|H]; [discriminate|auto].
Qed.
Print Assumptions C51_cor_to_eig.

(** the sorted decomposition of a symmetric matrix *)
Lemma sorted_decomposition : forall eigh argsort n C a, sorts argsort -> decomposes eigh n C -> holds_matrix a n C ->
  exists l V U, cor_to_eig eigh argsort a true None = Ok (map Fin l, V) /\ length l = n /\ holds_matrix V n U /\ orthogonal n U
    /\ meq n C (spectral n U (fun k => nth k l 0)) /\ descending l.
Proof.
  intros eigh argsort n C a Hs Hd Ha. destruct (Hd a Ha) as (l & V & U & E & L & (RV & CV & HV) & [O1 O2] & HC).
  destruct (C51_cor_to_eig eigh argsort a true None l V Hs E ltac:(congruence)) as (idx & V' & E' & Li & ND & Ir & Rv & Cv & HV' & _ & De). cbv zeta in *. rewrite L in *.
  assert (P : Permutation idx (seq 0 n)).
  { apply NoDup_Permutation_bis; auto; [rewrite seq_length; lia|]. intros i Hi. apply in_seq. specialize (Ir i Hi). lia. }
  assert (Nx : forall j, (j < n)%nat -> (nth j idx 0%nat < n)%nat) by (intros j Hj; apply Ir, nth_In; lia).
  assert (Vl : forall j, (j < n)%nat -> nth j (map (fun i => nth i l 0) idx) 0 = nth (nth j idx 0%nat) l 0).
  { intros j Hj. rewrite (nth_indep _ 0 (nth 0%nat l 0)) by (rewrite map_length; lia). apply (map_nth (fun i => nth i l 0)). }
  exists (map (fun i => nth i l 0) idx), V', (fun i j => U i (nth j idx 0%nat)). split; [exact E'|]. split; [rewrite map_length; auto|]. split; [|split; [|split]].
  - split; [congruence|]. split; [auto|]. intros i j Hi Hj. rewrite HV' by auto. apply HV; auto.
  - split.
    + intros i j Hi Hj. unfold mmul, mtr. pose proof (O1 (nth i idx 0%nat) (nth j idx 0%nat) (Nx i Hi) (Nx j Hj)) as H. unfold mmul, mtr in H. rewrite H. unfold mid.
      destruct (Nat.eqb_spec i j) as [->|Hne]; [rewrite Nat.eqb_refl; reflexivity|]. destruct (Nat.eqb_spec (nth i idx 0%nat) (nth j idx 0%nat)) as [Heq|]; [|reflexivity]. exfalso. apply Hne. apply (proj1 (NoDup_nth idx 0%nat) ND); auto; lia.
    + intros i j Hi Hj. unfold mmul, mtr. rewrite (sumn_perm n idx (fun k => U i k * U j k) P). apply O2; auto.
  - intros i j Hi Hj. rewrite (HC i j Hi Hj). unfold spectral. rewrite <- (sumn_perm n idx (fun k => U i k * nth k l 0 * U j k) P). apply S_ext. intros k Hk. rewrite Vl by auto. reflexivity.
  - apply De. left. reflexivity.
Qed.

(** Decomposing a correlation matrix and putting it together again gives it back. *)
Theorem C51_round_trip : forall eigh argsort n C a, sorts argsort -> decomposes eigh n C -> correlation_matrix n C -> holds_matrix a n C ->
  exists v e c, cor_to_eig eigh argsort a true None = Ok (v, e) /\ eig_to_cor v e = Ok c /\ holds_matrix c n C.
Proof.
  intros eigh argsort n C a Hs Hd HC Ha. destruct (sorted_decomposition eigh argsort n C a Hs Hd Ha) as (l & V & U & E & L & HV & _ & HS & _).
  destruct (reconstruct n U l V C L HV HS) as (c & Ec & Hc); [apply HC|intros; eapply corr_entry_bound; eauto|]. exists (map Fin l), V, c. auto.
Qed.
Print Assumptions C51_round_trip.

(** Completion of k < n eigenpairs: the values are kept and the n-k new ones share what is missing to a total of n; the given vectors
    are kept and the others come from the singular value decomposition.  A full set is returned unchanged, an empty one
    rejected. *)
Theorem C51_complete : forall svd_u values vectors,
  (ncol vectors = 0%nat -> eig_complete svd_u values vectors = Raise AssertionError)
  /\ ((1 <= ncol vectors)%nat -> (nrow vectors <= ncol vectors)%nat -> eig_complete svd_u values vectors = Ok (values, vectors))
  /\ (forall w e, values = map Fin w -> length w = ncol vectors -> (1 <= ncol vectors < nrow vectors)%nat -> svd_u vectors = Ok e ->
       exists w' E, eig_complete svd_u values vectors = Ok (map Fin w', E) /\ length w' = nrow vectors /\ rsum w' = INR (nrow vectors)
         /\ (forall i, (i < ncol vectors)%nat -> nth i w' 0 = nth i w 0)
         /\ (forall i, (ncol vectors <= i < nrow vectors)%nat -> nth i w' 0 = (INR (nrow vectors) - rsum w) / INR (nrow vectors - ncol vectors))
         /\ nrow E = nrow vectors /\ ncol E = nrow vectors
         /\ (forall i j, (j < ncol vectors)%nat -> at2 E i j = at2 vectors i j) /\ (forall i j, (ncol vectors <= j)%nat -> at2 E i j = at2 e i j)).
Proof.
  intros svd_u values vectors. unfold eig_complete. split; [|split].
  - intros ->. reflexivity.
  - intros H1 H2. rewrite (proj2 (Nat.eqb_neq _ _)) by lia. rewrite (proj2 (Nat.ltb_ge _ _)) by lia. reflexivity.
  - intros w e -> HL [H1 H2] Es. rewrite (proj2 (Nat.eqb_neq (ncol vectors) 0)) by lia. rewrite (proj2 (Nat.ltb_lt _ _)) by lia. rewrite map_length, HL, Nat.eqb_refl. cbn [orb negb]. rewrite Es. cbn [bind].
    rewrite nsum_fin. unfold nofnat. rewrite nsub_fin. rewrite ndiv_fin by (apply not_0_INR; lia).
    set (N := nrow vectors) in *. set (k := ncol vectors) in *. set (r := (INR N - rsum w) / INR (N - k)).
    exists (w ++ repeat r (N - k)). eexists. rewrite map_app, repeat_map. split; [reflexivity|].
    split; [rewrite app_length, repeat_length; lia|]. split; [rewrite rsum_app, rsum_repeat; unfold r; field; apply not_0_INR; lia|].
    split; [intros i Hi; apply app_nth1; lia|]. split; [intros i Hi; rewrite app_nth2 by lia; apply nth_repeat'; lia|]. cbn [nrow ncol at2]. split; [auto|]. split; [auto|]. split.
    + intros i j Hj. rewrite (proj2 (Nat.ltb_lt j k)) by auto. reflexivity.
    + intros i j Hj. rewrite (proj2 (Nat.ltb_ge j k)) by auto. reflexivity.
Qed.
Print Assumptions C51_complete.

(** ** C52 *)
Lemma variances_step : forall n A reg x v V c, 0 < reg -> nrow V = n -> eig_to_cor v V = Ok x -> cor_to_cov x (map (fun i => Fin (std_of reg (A i i))) (seq 0 n)) = Ok c ->
  nrow c = n /\ ncol c = n
  /\ (forall i, (i < n)%nat -> at2 c i i = Fin (Rmax (A i i) reg))
  /\ (forall i j, (i < n)%nat -> (j < n)%nat -> at2 c i j = at2 c j i
       /\ (at2 c i j = NaN \/ exists r, at2 c i j = Fin r /\ Rabs r <= sqrt (Rmax (A i i) reg) * sqrt (Rmax (A j j) reg))).
Proof.
  intros n A reg x v V c Hreg HV Ev H. set (s := fun i => sqrt (Rmax (A i i) reg)).
  assert (Sh : nrow x = n /\ ncol x = n) by (unfold eig_to_cor in Ev; destruct (negb (Nat.eqb (length v) (ncol V) || Nat.eqb (length v) 1)); [discriminate|]; injection Ev as <-; auto). destruct Sh as [Rx Cx].
  rewrite cor_to_cov_square in H by (rewrite map_length, seq_length; auto). injection H as <-. cbn [nrow ncol at2].
  split; [auto|]. split; [auto|].
  unfold eig_to_cor in Ev. destruct (negb (Nat.eqb (length v) (ncol V) || Nat.eqb (length v) 1)); [discriminate|]. injection Ev as <-. cbn [at2]. unfold fill_diagonal.
  assert (Ps : forall i, 0 < s i) by (intros i; apply std_pos; lra).
  assert (St : forall i, (i < n)%nat -> nth i (map (fun i => Fin (std_of reg (A i i))) (seq 0 n)) NaN = Fin (s i)) by (intros i Hi; rewrite nth_seq_map by auto; reflexivity).
  assert (Sq : forall i, s i * s i = Rmax (A i i) reg) by (intros i; apply sqrt_sqrt; pose proof (Rmax_r (A i i) reg); lra).
  split.
  - intros i Hi. rewrite Nat.eqb_refl, St by auto. cbn [nmul]. f_equal. rewrite Sq. ring.
  - intros i j Hi Hj. rewrite !St by auto. rewrite (Nat.eqb_sym j i). destruct (Nat.eqb_spec i j) as [<-|Hij].
    + split; [reflexivity|]. right. exists (s i * s i). cbn [nmul]. split; [f_equal; ring|]. rewrite Rabs_right; [apply Rle_refl|]. pose proof (Ps i). nra.
    + assert (Sym : nsum (map (fun l => nmul (at2 V i l) (nmul (if Nat.eqb (length v) 1 then nth 0 v NaN else nth l v NaN) (at2 V j l))) (seq 0 (ncol V))) = nsum (map (fun l => nmul (at2 V j l) (nmul (if Nat.eqb (length v) 1 then nth 0 v NaN else nth l v NaN) (at2 V i l))) (seq 0 (ncol V)))) by (f_equal; apply map_ext; intros; apply nmul3_swap).
      rewrite <- Sym. set (d := nsum _). destruct (clip1_bounded d) as [-> | (r & -> & Hr)].
      * split; [reflexivity|left; reflexivity].
      * cbn [nmul]. split; [f_equal; ring|]. right. eexists. split; [reflexivity|]. rewrite Rabs_mult, (Rabs_right (s i * s j)) by (pose proof (Ps i); pose proof (Ps j); nra).
        assert (Rabs r <= 1) by (apply Rabs_le; lra). pose proof (Rmult_lt_0_compat _ _ (Ps i) (Ps j)). fold (s i) (s j). nra.
Qed.
Lemma bind_step : forall A B (r : res A) (f : A -> res B) a, r = Ok a -> bind r f = f a.
Proof. intros A B r f a ->. reflexivity. Qed.
Lemma cor_to_eig_rows : forall eigh argsort a sort k v V, (forall v V, eigh a = Ok (v, V) -> nrow V = nrow a) -> cor_to_eig eigh argsort a sort k = Ok (v, V) -> nrow V = nrow a.
Proof.
  intros eigh argsort a sort k v V HE H. unfold cor_to_eig in H. apply bind_ok in H as ([v0 V0] & E & H). apply HE in E.
  destruct k as [kk|]; [destruct (kk =? 0)%Z|]; destruct sort; injection H as _ <-; exact E.
Qed.
Lemma eig_complete_rows : forall svd_u v V v' V', eig_complete svd_u v V = Ok (v', V') -> nrow V' = nrow V.
Proof.
  intros svd_u v V v' V' H. unfold eig_complete in H. destruct (Nat.eqb (ncol V) 0); [discriminate|]. destruct (Nat.ltb (ncol V) (nrow V)).
  - destruct (negb _); [discriminate|]. apply bind_ok in H as (e & _ & H). injection H as _ <-. reflexivity.
  - injection H as _ <-. reflexivity.
Qed.
Lemma cor_denoise_shape : forall eigh argsort svd_u c0 T k x e info, (forall v V, eigh c0 = Ok (v, V) -> nrow V = nrow c0) ->
  cor_denoise eigh argsort svd_u (Array c0) T k = Ok (x, e, info) -> exists v V, nrow V = nrow c0 /\ eig_to_cor v V = Ok x.
Proof.
  intros eigh argsort svd_u c0 T k x e info0 HE Hx. unfold cor_denoise in Hx. destruct (negb (Nat.eqb (nrow c0) (ncol c0))); [discriminate|]. destruct k as [kk|].
  - apply bind_ok in Hx as ([v V] & E1 & Hx). apply bind_ok in Hx as ([v' V'] & E2 & Hx). apply bind_ok in Hx as (y & Ey & Hx). injection Hx as <- _ _.
    apply cor_to_eig_rows in E1; [|exact HE]. apply eig_complete_rows in E2. exists v', V'. split; [|exact Ey]. rewrite E2. exact E1.
  - apply bind_ok in Hx as ([v V] & E1 & Hx). apply bind_ok in Hx as ([v' V'] & _ & Hx). apply bind_ok in Hx as (y & Ey & Hx). injection Hx as <- _ _.
    apply cor_to_eig_rows in E1; [|exact HE]. exists v', V. split; [exact E1|exact Ey].
Qed.
(** Whatever numbers eigh, argsort and svd return, as long as eigenvectors have as many entries as the matrix has rows: if denoising succeeds, the result has the size of the input, its diagonal holds the
    variances (or 1e-6 where they are smaller), it is symmetric, and entry (i,j) is NaN or bounded by the product of the standard
    deviations. *)
Theorem C52_variances : forall eigh argsort svd_u n A T k c info, (forall a v V, nrow a = n -> ncol a = n -> eigh a = Ok (v, V) -> nrow V = n) -> cov_denoise eigh argsort svd_u (Array (matrix n A)) T k = Ok (c, info) ->
  let s i := sqrt (Rmax (A i i) (/ 1000000)) in
  nrow c = n /\ ncol c = n
  /\ (forall i, (i < n)%nat -> at2 c i i = Fin (Rmax (A i i) (/ 1000000)))
  /\ (forall i j, (i < n)%nat -> (j < n)%nat -> at2 c i j = at2 c j i /\ (at2 c i j = NaN \/ exists r, at2 c i j = Fin r /\ Rabs r <= s i * s j)).
Proof.
  intros eigh argsort svd_u n A T k c info HE H s. unfold s. clear s. unfold cov_denoise, default_reg in H. assert (Hreg : 0 < / 1000000) by lra. revert H Hreg. generalize (/ 1000000). intros reg H Hreg.
  destruct (cov_to_cor_real n A reg Hreg) as (c0 & E0 & R0 & C0 & _). rewrite E0 in H. cbn [bind fst snd] in H.
  destruct (cor_denoise eigh argsort svd_u (Array c0) T k) as [[[x e] i0]|] eqn:Ex; [|discriminate]. cbn [bind] in H. assert (HE0 : forall v V, eigh c0 = Ok (v, V) -> nrow V = nrow c0) by (intros v V E; rewrite R0; exact (HE c0 v V R0 C0 E)). destruct (cor_denoise_shape _ _ _ _ _ _ _ _ _ HE0 Ex) as (v & V & HV & Ev). clear Ex. rewrite R0 in HV.
  destruct (cor_to_cov x (map (fun i => Fin (std_of reg (A i i))) (seq 0 n))) as [y|] eqn:Ey; [|discriminate]. cbn [bind] in H.
  assert (Ec : y = c) by (injection H; auto). rewrite <- Ec. exact (variances_step n A reg x v V y Hreg HV Ev Ey).
Qed.
Print Assumptions C52_variances.

(** the heart of the matter: shrinking the eigenvalues towards a common smaller value and resetting the diagonal to one keeps the
    matrix positive semidefinite *)
Lemma shrink_psd : forall n U E (v w : nat -> R) k m,
  (forall i, (i < n)%nat -> spectral n U v i i = 1) -> (forall l, (l < n)%nat -> 0 <= v l) ->
  (forall i l, (l < k)%nat -> E i l = U i l) -> meq n (mmul n E (mtr E)) mid ->
  (forall l, (l < k)%nat -> (l < n)%nat -> m <= w l <= v l) -> (forall l, (k <= l)%nat -> (l < n)%nat -> w l = m) -> 0 <= m ->
  let R0 := fun i j => if Nat.eqb i j then 1 else spectral n E w i j in
  correlation_matrix n R0.
Proof.
  intros n U E v w k m HD Hv HE HO Hw Hm Hm0 R0.
  set (d := fun l => w l - m).
  assert (Dn : forall l, (l < n)%nat -> 0 <= d l) by (intros l Hl; unfold d; destruct (Nat.lt_ge_cases l k) as [H|H]; [destruct (Hw l H Hl); lra|rewrite (Hm l H Hl); lra]).
  assert (Sp : forall i j, (i < n)%nat -> (j < n)%nat -> spectral n E w i j = spectral n E d i j + m * mid i j).
  { intros i j Hi Hj. rewrite <- (HO i j Hi Hj). unfold spectral, mmul, mtr. rewrite <- S_scal, <- S_plus. apply S_ext. intros l _. unfold d. ring. }
  assert (Dg : forall i, (i < n)%nat -> spectral n E d i i <= 1).
  { intros i Hi. rewrite <- (HD i Hi). unfold spectral. apply S_le. intros l Hl. destruct (Nat.lt_ge_cases l k) as [H|H].
    - rewrite HE by auto. destruct (Hw l H Hl). unfold d. pose proof (Rle_0_sqr (U i l)). unfold Rsqr in *. nra.
    - unfold d. rewrite (Hm l H Hl). pose proof (Hv l Hl). pose proof (Rle_0_sqr (U i l)). unfold Rsqr in *. nra. }
  split.
  - split.
    + intros i j Hi Hj. unfold mtr, R0. rewrite (Nat.eqb_sym j i). destruct (Nat.eqb i j); [reflexivity|]. unfold spectral. apply S_ext. intros; ring.
    + intros x. set (t := fun i => 1 - spectral n E d i i).
      assert (Q : quad n R0 x = sumn n (fun l => d l * (sumn n (fun i => E i l * x i) * sumn n (fun i => E i l * x i))) + sumn n (fun i => t i * (x i * x i))).
      { unfold quad. rewrite (S_ext n _ (fun i => sumn n (fun j => x i * spectral n E d i j * x j) + t i * (x i * x i))).
        - rewrite S_plus. f_equal. unfold spectral.
          transitivity (sumn n (fun i => sumn n (fun j => sumn n (fun l => d l * ((E i l * x i) * (E j l * x j)))))).
          + apply S_ext. intros i _. apply S_ext. intros j _. rewrite Rmult_assoc, <- S_scal_r, <- S_scal. apply S_ext. intros l _. ring.
          + rewrite (S_ext n _ (fun i => sumn n (fun l => sumn n (fun j => d l * ((E i l * x i) * (E j l * x j)))))) by (intros i _; apply S_swap).
            rewrite S_swap. apply S_ext. intros l _. rewrite <- S_scal_r, <- S_scal. apply S_ext. intros i _. rewrite <- S_scal, <- S_scal. reflexivity.
        - intros i Hi. rewrite (S_ext n _ (fun j => x i * spectral n E d i j * x j + (if Nat.eqb j i then t i * (x i * x i) else 0))).
          + rewrite S_plus. f_equal. rewrite (S_single n _ i Hi) by (intros j _ Hne; rewrite (proj2 (Nat.eqb_neq j i)) by auto; reflexivity). rewrite Nat.eqb_refl. reflexivity.
          + intros j Hj. unfold R0. rewrite (Nat.eqb_sym i j). destruct (Nat.eqb_spec j i) as [->|Hne]; [unfold t; ring|]. rewrite Sp by auto. unfold mid. rewrite (proj2 (Nat.eqb_neq i j)) by auto. ring. }
      rewrite Q. apply Rplus_le_le_0_compat; apply S_nonneg; intros l Hl.
      * apply Rmult_le_pos; [auto|]. pose proof (Rle_0_sqr (sumn n (fun i => E i l * x i))). unfold Rsqr in *. lra.
      * apply Rmult_le_pos; [unfold t; pose proof (Dg l Hl); lra|]. pose proof (Rle_0_sqr (x l)). unfold Rsqr in *. lra.
  - intros i Hi. unfold R0. rewrite Nat.eqb_refl. reflexivity.
Qed.
Lemma reset_holds : forall n E w V, length w = n -> holds_matrix V n E ->
  correlation_matrix n (fun i j => if Nat.eqb i j then 1 else spectral n E (fun k => nth k w 0) i j) ->
  exists c, eig_to_cor (map Fin w) V = Ok c /\ holds_matrix c n (fun i j => if Nat.eqb i j then 1 else spectral n E (fun k => nth k w 0) i j).
Proof.
  intros n E w V HL HV HC. destruct (eig_to_cor_real n E w V HL HV) as (c & Ec & Rc & Cc & D & O). exists c. split; [exact Ec|]. split; [auto|]. split; [auto|].
  intros i j Hi Hj. pose proof (corr_entry_bound n _ i j HC Hi Hj) as B. cbv beta in B. destruct (Nat.eqb_spec i j) as [<-|Hij]; [apply D|]. rewrite O by auto. apply clip1_id. exact B.
Qed.

(** eigenvalues of a positive semidefinite matrix are not negative *)
Lemma eigenvalue_nonneg : forall n C U (v : nat -> R), psd n C -> orthogonal n U -> meq n C (spectral n U v) -> forall l, (l < n)%nat -> 0 <= v l.
Proof.
  intros n C U v [_ P] [O1 _] HC l Hl. specialize (P (fun i => U i l)).
  replace (quad n C (fun i => U i l)) with (v l) in P; [auto|]. symmetry. unfold quad.
  rewrite (S_ext n _ (fun i => sumn n (fun j => sumn n (fun k => U i l * (U i k * v k * U j k) * U j l)))).
  2:{ intros i Hi. apply S_ext. intros j Hj. rewrite (HC i j Hi Hj). unfold spectral. rewrite <- S_scal, <- S_scal_r. reflexivity. }
  rewrite (S_ext n _ (fun i => sumn n (fun k => sumn n (fun j => U i l * (U i k * v k * U j k) * U j l)))) by (intros; apply S_swap). rewrite S_swap.
  assert (Dot : forall k, (k < n)%nat -> sumn n (fun i => U i k * U i l) = mid k l) by (intros k Hk; apply (O1 k l Hk Hl)).
  rewrite (S_ext n _ (fun k => v k * (mid k l * mid k l))).
  - rewrite (S_single n _ l Hl); [unfold mid; rewrite Nat.eqb_refl; ring|]. intros k _ Hk. unfold mid. rewrite (proj2 (Nat.eqb_neq k l)) by auto. ring.
  - intros k Hk. rewrite <- (Dot k Hk). rewrite <- S_scal_r, <- S_scal. apply S_ext. intros i _. rewrite <- S_scal, <- S_scal. apply S_ext. intros j _. ring.
Qed.

Lemma sum_nth : forall l : list R, rsum l = sumn (length l) (fun i => nth i l 0).
Proof. intros l. unfold sumn. f_equal. symmetry. induction l as [|x l IH]; [reflexivity|]. cbn [length seq map nth]. f_equal. rewrite <- seq_shift, map_map. exact IH. Qed.

(** denoising a correlation matrix gives a correlation matrix *)
Lemma cor_denoise_valid : forall eigh argsort svd_u n C a T k, sorts argsort -> decomposes eigh n C -> completes svd_u n -> correlation_matrix n C -> holds_matrix a n C ->
  (1 <= n)%nat -> (1 <= T)%nat -> (forall kk, k = Some kk -> (1 <= slice_start n kk)%nat) ->
  exists c e info R0, cor_denoise eigh argsort svd_u (Array a) T k = Ok (c, e, info) /\ holds_matrix c n R0 /\ correlation_matrix n R0
    /\ (forall kk, k = Some kk -> slice_start n kk = n -> meq n R0 C).
Proof.
  intros eigh argsort svd_u n C a T k Hs Hd Hc HC Ha Hn HT Hk. destruct (sorted_decomposition eigh argsort n C a Hs Hd Ha) as (l & V & U & E & L & HV & HO & HS & De).
  assert (Vn : forall i, (i < n)%nat -> 0 <= nth i l 0) by (intros i Hi; exact (eigenvalue_nonneg n C U (fun k => nth k l 0) (proj1 HC) HO HS i Hi)).
  assert (Diag : forall i, (i < n)%nat -> spectral n U (fun k => nth k l 0) i i = 1) by (intros i Hi; rewrite <- (HS i i Hi Hi); apply HC; auto).
  assert (Tot : rsum l = INR n).
  { rewrite sum_nth, L. rewrite <- (trace_spectral n U (fun i => nth i l 0) HO). rewrite <- (trace_ext n _ _ HS). unfold trace. rewrite (S_ext n _ (fun _ => 1)) by (intros; apply HC; auto). unfold sumn. rewrite rsum_const, seq_length. ring. }
  unfold cor_denoise. destruct Ha as (Ra & Ca & Ha). rewrite Ra, Ca, Nat.eqb_refl. cbn [negb].
  assert (Full : correlation_matrix n (fun i j => if Nat.eqb i j then 1 else spectral n U (fun k => nth k l 0) i j)).
  { apply (shrink_psd n U U (fun k => nth k l 0) (fun k => nth k l 0) n 0); auto; [apply HO| |intros; lia|lra]. intros i _ Hi. split; [auto|lra]. }
  destruct k as [kk|].
  - specialize (Hk kk eq_refl). rewrite E. cbn [bind]. rewrite map_length, L. destruct HV as (RV & CV & HV). rewrite CV. set (k := slice_start n kk) in *. assert (Kn : (k <= n)%nat) by apply slice_start_le.
    destruct (Nat.eq_dec k n) as [Ek|NEk].
    + destruct (C51_complete svd_u (firstn k (map Fin l)) (first_cols k V)) as (_ & C2 & _). cbn [first_cols ncol nrow] in C2. rewrite RV, CV in C2. rewrite C2 by lia. cbn [bind fst snd].
      rewrite firstn_all2 by (rewrite map_length; lia).
      assert (HV' : holds_matrix (first_cols k V) n U) by (split; [auto|split; [cbn [first_cols ncol]; lia|exact HV]]).
      destruct (reset_holds n U l (first_cols k V) L HV' Full) as (c & Ec & Hcc). rewrite Ec. cbn [bind]. eexists _, _, _, _. split; [reflexivity|]. split; [exact Hcc|]. split; [exact Full|].
      intros kk' _ _ i j Hi Hj. cbv beta. rewrite (HS i j Hi Hj). destruct (Nat.eqb_spec i j) as [<-|]; [symmetry; apply Diag; auto|reflexivity].
    + destruct (Hc (first_cols k V) k U RV ltac:(cbn [first_cols ncol]; lia) ltac:(lia)) as (e & W & Es & (Re & Ce & He) & HOE).
      { intros i j Hi Hj. apply HV; lia. }
      { intros p q Hp Hq. pose proof (proj1 HO p q ltac:(lia) ltac:(lia)) as X. exact X. }
      destruct (C51_complete svd_u (firstn k (map Fin l)) (first_cols k V)) as (_ & _ & C3). cbn [first_cols ncol nrow at2] in C3. rewrite RV, CV in C3. replace (Nat.min k n) with k in C3 by lia.
      destruct (C3 (firstn k l) e ltac:(apply firstn_map) ltac:(rewrite firstn_length; lia) ltac:(lia) Es) as (w & E' & Ew & Lw & Sw & W1 & W2 & RE & CE & E1 & E2). rewrite Ew. cbn [bind fst snd].
      set (EE := fun i j => if Nat.ltb j k then U i j else W i j) in *.
      assert (HE' : holds_matrix E' n EE).
      { split; [auto|split; [auto|]]. intros i j Hi Hj. unfold EE. destruct (Nat.ltb_spec j k); [rewrite E1 by auto; apply HV; lia|rewrite E2 by auto; apply He; auto]. }
      set (m := tail_mean k l).
      assert (Em : (INR n - rsum (firstn k l)) / INR (n - k) = m).
      { unfold m, tail_mean. rewrite L. f_equal. rewrite <- Tot. rewrite <- (firstn_skipn k l) at 1. rewrite rsum_app. ring. }
      assert (Valid : correlation_matrix n (fun i j => if Nat.eqb i j then 1 else spectral n EE (fun k => nth k w 0) i j)).
      { apply (shrink_psd n U EE (fun k => nth k l 0) (fun k => nth k w 0) k m); auto.
        - intros i j Hj. unfold EE. rewrite (proj2 (Nat.ltb_lt j k)) by auto. reflexivity.
        - apply HOE.
        - intros i Hi Hi'. rewrite W1, nth_firstn' by auto. split; [|lra]. apply (tail_mean_bounds k l 0 (nth i l 0)); [lia|]. intros j J1 J2. split; [apply Vn; lia|apply De; lia].
        - intros i Hi Hi'. rewrite W2 by lia. exact Em.
        - apply (tail_mean_bounds k l 0 (nth 0 l 0)); [lia|]. intros j J1 J2. split; [apply Vn; lia|apply De; lia]. }
      destruct (reset_holds n EE w E' Lw HE' Valid) as (c & Ec & Hcc). rewrite Ec. cbn [bind]. eexists _, _, _, _. split; [reflexivity|]. split; [exact Hcc|]. split; [exact Valid|].
      intros kk' K1 K2. injection K1 as <-. fold k in K2. congruence.
  - rewrite (bind_step _ _ _ _ _ E). unfold eigen_values_denoise. rewrite map_length, L. cbv beta iota. unfold snd at 1.
    set (l' := if Nat.ltb T n then firstn T l ++ repeat 0 (n - T) else l).
    assert (El : (if Nat.ltb T n then firstn T (map Fin l) ++ repeat (Fin 0) (n - T) else map Fin l) = map Fin l') by (unfold l'; destruct (Nat.ltb T n); [rewrite map_app, repeat_map, firstn_map; reflexivity|reflexivity]).
    rewrite El.
    assert (Ll : length l' = n) by (unfold l'; destruct (Nat.ltb_spec T n); [rewrite app_length, firstn_length, repeat_length; lia|auto]).
    assert (Vl : forall i, (i < n)%nat -> 0 <= nth i l' 0 <= nth i l 0).
    { intros i Hi. unfold l'. destruct (Nat.ltb_spec T n); [|split; [auto|lra]]. destruct (Nat.lt_ge_cases i T).
      - rewrite app_nth1 by (rewrite firstn_length; lia). rewrite nth_firstn' by auto. split; [auto|lra].
      - rewrite app_nth2 by (rewrite firstn_length; lia). rewrite nth_repeat' by (rewrite firstn_length; lia). split; [lra|auto]. }
    assert (Dl : descending l').
    { intros i j Hij Hj. rewrite Ll in Hj. unfold l'. destruct (Nat.ltb_spec T n); [|apply De; lia]. destruct (Nat.lt_ge_cases j T).
      - rewrite !app_nth1 by (rewrite firstn_length; lia). rewrite !nth_firstn' by lia. apply De; lia.
      - rewrite (app_nth2 _ _ _ (n := j)) by (rewrite firstn_length; lia). rewrite nth_repeat' by (rewrite firstn_length; lia).
        pose proof (Vl i ltac:(lia)) as X. unfold l' in X. try rewrite (proj2 (Nat.ltb_lt T n)) in X by auto. lra. }
    set (sub := if Nat.ltb T n then firstn (n - T) (map Fin l') else map Fin l').
    assert (Sne : sub <> []).
    { unfold sub. destruct (Nat.ltb_spec T n); intros X; apply (f_equal (@length num)) in X; cbn in X; [rewrite firstn_length, map_length in X|rewrite map_length in X]; lia. }
    destruct (C50_fit_total T n sub HT Hn Sne) as (best & Eb & Rb). rewrite Eb. cbn [bind].
    destruct (proj2 (C50_support best T n) HT Hn ltac:(lra)) as (lo & hi & Eh & _). rewrite Eh. cbn [bind fst snd].
    set (kk := Z.of_nat (length (filter (fun x => ngeb x (Fin hi)) (map Fin l')))).
    destruct (flatten_real l' kk) as (w & Ew & (Lw & W1 & W2)). rewrite Ew. rewrite Ll in *. set (k := slice_start n kk) in *. assert (Kn : (k <= n)%nat) by apply slice_start_le.
    assert (Valid : correlation_matrix n (fun i j => if Nat.eqb i j then 1 else spectral n U (fun k => nth k w 0) i j)).
    { destruct (Nat.eq_dec k n) as [Ek|NEk].
      - apply (shrink_psd n U U (fun k => nth k l 0) (fun k => nth k w 0) n 0); auto; [apply HO| |intros; lia|lra]. intros i _ Hi. rewrite W1 by lia. apply Vl; auto.
      - apply (shrink_psd n U U (fun k => nth k l 0) (fun k => nth k w 0) k (tail_mean k l')); auto; [apply HO| |].
        + intros i Hi Hi'. rewrite W1 by auto. pose proof (Vl i Hi'). split; [|lra]. apply (tail_mean_bounds k l' 0 (nth i l' 0)); [lia|]. intros j J1 J2. split; [apply Vl; lia|apply Dl; lia].
        + apply (tail_mean_bounds k l' 0 (nth 0 l' 0)); [lia|]. intros j J1 J2. split; [apply Vl; lia|apply Dl; lia]. }
    destruct (reset_holds n U w V Lw HV Valid) as (c & Ec & Hcc). rewrite Ec. cbn [bind]. eexists _, _, _, _. split; [reflexivity|]. split; [exact Hcc|]. split; [exact Valid|]. intros kk' K. discriminate.
Qed.

(** Denoising a covariance matrix (variances at least 1e-6) gives a covariance matrix with the same variances, for an automatic k
    and for every given k that keeps at least one eigenvalue; keeping all of them returns the matrix unchanged. *)
Theorem C52_valid : forall eigh argsort svd_u n A T k, (1 <= n)%nat -> (1 <= T)%nat -> psd n A -> (forall i, (i < n)%nat -> / 1000000 <= A i i) ->
  let C := fun i j => A i j / (sqrt (A i i) * sqrt (A j j)) in
  sorts argsort -> decomposes eigh n C -> completes svd_u n ->
  (k = None \/ (exists kk, k = Some kk /\ ((1 <= kk)%Z \/ (- Z.of_nat n < kk < 0)%Z))) ->
  exists c info B, cov_denoise eigh argsort svd_u (Array (matrix n A)) T k = Ok (c, info) /\ holds_matrix c n B /\ psd n B
    /\ (forall i, (i < n)%nat -> B i i = A i i)
    /\ (forall kk, k = Some kk -> (Z.of_nat n <= kk)%Z -> meq n B A).
Proof.
  intros eigh argsort svd_u n A T k Hn HT HP Hv C Hs Hd Hc Hk.
  destruct (C47_covariance n A (/ 1000000) ltac:(lra) HP Hv) as (c0 & std & b0 & C' & E0 & HC' & CC & Eb & Hb).
  destruct (C47_round_trip n A (/ 1000000) ltac:(lra)) as (c1 & std1 & b1 & E1 & _ & Estd & H1 & _). rewrite E0 in E1. injection E1 as <- <-. cbv zeta in *.
  assert (Sv : forall i, (i < n)%nat -> sqrt (Rmax (A i i) (/ 1000000)) = sqrt (A i i)) by (intros i Hi; rewrite Rmax_left by (apply Hv; auto); reflexivity).
  assert (Ps : forall i, (i < n)%nat -> 0 < sqrt (A i i)) by (intros i Hi; apply sqrt_lt_R0; pose proof (Hv i Hi); lra).
  assert (Bd : forall i j, (i < n)%nat -> (j < n)%nat -> Rabs (A i j) <= sqrt (A i i) * sqrt (A j j)).
  { intros i j Hi Hj. destruct (psd_minor n A i j HP Hi Hj) as [_ M]. pose proof (Hv i Hi). pose proof (Hv j Hj). rewrite <- sqrt_mult by lra. rewrite <- sqrt_Rsqr_abs. apply sqrt_le_1_alt. unfold Rsqr. lra. }
  assert (HC : holds_matrix c0 n C).
  { destruct HC' as (X1 & X2 & _). split; [auto|split; [auto|]]. intros i j Hi Hj. unfold C. rewrite <- (Sv i Hi), <- (Sv j Hj). apply H1; auto. rewrite !Sv by auto. auto. }
  assert (CCm : correlation_matrix n C).
  { assert (Eq : meq n C C') by (intros i j Hi Hj; destruct HC as (_ & _ & X), HC' as (_ & _ & Y); specialize (X i j Hi Hj); rewrite (Y i j Hi Hj) in X; injection X; auto).
    destruct CC as [[Sy P] D]. split; [split|].
    - intros i j Hi Hj. unfold mtr. rewrite (Eq i j Hi Hj), (Eq j i Hj Hi). apply Sy; auto.
    - intros x. replace (quad n C x) with (quad n C' x); [apply P|]. unfold quad. apply S_ext. intros i Hi. apply S_ext. intros j Hj. rewrite (Eq i j Hi Hj). reflexivity.
    - intros i Hi. rewrite (Eq i i Hi Hi). apply D; auto. }
  assert (Sl : forall kk, k = Some kk -> (1 <= slice_start n kk)%nat).
  { intros kk ->. destruct Hk as [|(k1 & K1 & K2)]; [discriminate|]. injection K1 as <-. unfold slice_start. destruct (Z.ltb_spec kk 0); lia. }
  destruct (cor_denoise_valid eigh argsort svd_u n C c0 T k Hs Hd Hc CCm HC Hn HT Sl) as (c & e & info & R0 & Ec & (Rc & Cc & Hcc) & [[Sy P] D] & Full).
  unfold cov_denoise. unfold default_reg. rewrite E0. cbn [bind fst snd]. rewrite Ec. cbn [bind].
  rewrite cor_to_cov_square by (rewrite Estd, map_length, seq_length; auto). rewrite Estd, Rc, Cc. cbn [bind].
  set (B := fun i j => R0 i j * (sqrt (A i i) * sqrt (A j j))).
  eexists _, _, B. split; [reflexivity|]. split; [|split; [|split]].
  - split; [reflexivity|]. split; [reflexivity|]. cbn [at2]. intros i j Hi Hj. rewrite Hcc by auto. rewrite !nth_seq_map by auto. cbn [nmul]. unfold B. rewrite !Sv by auto. reflexivity.
  - split.
    + intros i j Hi Hj. unfold mtr, B. rewrite (Sy i j Hi Hj). unfold mtr. ring.
    + intros x. replace (quad n B x) with (quad n R0 (fun i => sqrt (A i i) * x i)); [apply P|]. unfold quad, B. apply S_ext. intros i _. apply S_ext. intros j _. ring.
  - intros i Hi. unfold B. rewrite (D i Hi). rewrite sqrt_sqrt by (pose proof (Hv i Hi); lra). ring.
  - intros kk Ek Hkk i j Hi Hj. unfold B. rewrite (Full kk Ek) by (auto; unfold slice_start; rewrite (proj2 (Z.ltb_ge kk 0)) by lia; lia). unfold C. field. split; apply Rgt_not_eq, Ps; auto.
Qed.
Print Assumptions C52_valid.

(** what is rejected: anything but an array, a matrix which is not square, and a k that keeps no eigenvalue (a covariance array with one
    row and no column, or the reverse, passes for an empty matrix) *)
Theorem C52_rejects : forall eigh argsort svd_u T k,
  cov_denoise eigh argsort svd_u NotArray T k = Raise TypeError
  /\ cor_denoise eigh argsort svd_u NotArray T k = Raise TypeError
  /\ (forall a, nrow a <> ncol a -> ((nrow a + ncol a <> 1)%nat -> cov_denoise eigh argsort svd_u (Array a) T k = Raise ValueError) /\ cor_denoise eigh argsort svd_u (Array a) T k = Raise ValueError)
  /\ (forall n C a, sorts argsort -> decomposes eigh n C -> holds_matrix a n C -> forall kk, (kk = 0 \/ kk <= - Z.of_nat n)%Z ->
        cor_denoise eigh argsort svd_u (Array a) T (Some kk) = Raise AssertionError).
Proof.
  intros eigh argsort svd_u T k. split; [reflexivity|]. split; [reflexivity|]. split.
  - intros a H. split; [|unfold cor_denoise; rewrite (proj2 (Nat.eqb_neq _ _) H); reflexivity]. intros H0. unfold cov_denoise.
    destruct (Nat.eq_dec (nrow a) 1) as [E1|E1]; [|destruct (Nat.eq_dec (ncol a) 1) as [E2|E2]; [|rewrite (proj1 (proj2 C47_rejects)) by auto; reflexivity]].
    + unfold cov_to_cor. replace (Nat.min (nrow a) (ncol a)) with 1%nat by lia. unfold bcast2, bdim, outer. cbn [length seq map nrow ncol]. rewrite E1. destruct (Nat.eqb_spec (ncol a) 1) as [E2|E2]; [lia|]. cbn [Nat.eqb bind fst]. unfold cor_denoise. cbn [nrow ncol]. rewrite (proj2 (Nat.eqb_neq 1 (ncol a))) by lia. reflexivity.
    + unfold cov_to_cor. replace (Nat.min (nrow a) (ncol a)) with 1%nat by lia. unfold bcast2, bdim, outer. cbn [length seq map nrow ncol]. rewrite E2. destruct (Nat.eqb_spec (nrow a) 1) as [E3|_]; [lia|]. cbn [Nat.eqb bind fst]. unfold cor_denoise. cbn [nrow ncol]. rewrite (proj2 (Nat.eqb_neq (nrow a) 1)) by lia. reflexivity.
  - intros n C a Hs Hd Ha kk Hkk. destruct (sorted_decomposition eigh argsort n C a Hs Hd Ha) as (l & V & U & E & L & (RV & CV & HV) & _).
    unfold cor_denoise. destruct Ha as (Ra & Ca & _). rewrite Ra, Ca, Nat.eqb_refl. cbn [negb]. rewrite E. cbn [bind]. rewrite map_length, L, CV.
    assert (S0 : slice_start n kk = 0%nat) by (unfold slice_start; destruct (Z.ltb_spec kk 0); lia). rewrite S0. cbn. reflexivity.
Qed.
Print Assumptions C52_rejects.

(** ** C81 *)
(** A random covariance matrix is symmetric and positive semidefinite, and its trace is the mean of the squares of all the standard
    normal draws used; dimension zero fails. *)
Lemma random_cov_real : forall z dim, (1 <= dim)%nat ->
  exists a B, random_cov z dim = Ok a /\ holds_matrix a dim B /\ psd dim B
    /\ B = (fun i j => sumn (2 * dim) (fun t => (sqrt 2 / INR (2 * dim) * z t i) * (sqrt 2 / INR (2 * dim) * z t j))).
Proof.
  intros z dim Hd. unfold random_cov. rewrite (proj2 (Nat.eqb_neq dim 0)) by lia. eexists. exists (fun i j => sumn (2 * dim) (fun t => (sqrt 2 / INR (2 * dim) * z t i) * (sqrt 2 / INR (2 * dim) * z t j))). split; [reflexivity|]. split.
  - split; [reflexivity|]. split; [reflexivity|]. intros i j _ _. cbn [at2]. unfold sumn. rewrite <- nsum_fin, map_map. reflexivity.
  - split; [|reflexivity]. split.
    + intros i j _ _. unfold mtr. apply S_ext. intros; ring.
    + intros x. set (c := sqrt 2 / INR (2 * dim)). replace (quad dim _ x) with (sumn (2 * dim) (fun t => sumn dim (fun i => x i * (c * z t i)) * sumn dim (fun i => x i * (c * z t i)))).
      * apply S_nonneg. intros t _. pose proof (Rle_0_sqr (sumn dim (fun i => x i * (c * z t i)))). unfold Rsqr in *. lra.
      * unfold quad. rewrite (S_ext dim _ (fun i => sumn (2 * dim) (fun t => sumn dim (fun j => x i * (c * z t i) * (x j * (c * z t j)))))).
        -- rewrite S_swap. apply S_ext. intros t _. rewrite <- S_scal_r. apply S_ext. intros i _. rewrite <- S_scal. reflexivity.
        -- intros i _. rewrite S_swap. apply S_ext. intros j _. rewrite <- S_scal, <- S_scal_r. apply S_ext. intros; ring.
Qed.
Theorem C81_random_cov : forall z dim,
  (dim = 0%nat -> random_cov z dim = Raise ZeroDivisionError /\ random_cor z dim = Raise ZeroDivisionError)
  /\ ((1 <= dim)%nat -> exists a B, random_cov z dim = Ok a /\ holds_matrix a dim B /\ psd dim B
       /\ trace dim B = sumn (2 * dim) (fun t => sumn dim (fun i => z t i * z t i)) / INR (2 * dim * dim)).
Proof.
  intros z dim. split.
  - intros ->. split; reflexivity.
  - intros Hd. destruct (random_cov_real z dim Hd) as (a & B & E & Ha & P & EB). exists a, B. split; [auto|]. split; [auto|]. split; [auto|].
    rewrite EB. unfold trace. rewrite S_swap. unfold Rdiv at 3. rewrite <- S_scal_r. apply S_ext. intros t _. rewrite <- S_scal_r. apply S_ext. intros i _.
    assert (PD : 0 < INR dim) by (apply lt_0_INR; lia). assert (S2 : sqrt 2 * sqrt 2 = 2) by (apply sqrt_sqrt; lra). rewrite !mult_INR. change (INR 2) with 2.
    replace (sqrt 2 / (2 * INR dim) * z t i * (sqrt 2 / (2 * INR dim) * z t i)) with ((sqrt 2 * sqrt 2) * (z t i * z t i) / (4 * INR dim * INR dim)) by (field; lra). rewrite S2. field. lra.
Qed.
Print Assumptions C81_random_cov.

(** A random correlation matrix is symmetric and positive semidefinite with entries in [-1,1]; its diagonal is one exactly where
    the random variance was at least 1e-6, and v/1e-6 < 1 for a smaller variance v, so it need not be a correlation matrix. *)
Theorem C81_random_cor : forall z dim, (1 <= dim)%nat -> exists a B r C, random_cov z dim = Ok a /\ holds_matrix a dim B /\ random_cor z dim = Ok r /\ holds_matrix r dim C
  /\ psd dim C /\ (forall i j, (i < dim)%nat -> (j < dim)%nat -> -1 <= C i j <= 1)
  /\ (forall i, (i < dim)%nat -> C i i = B i i / Rmax (B i i) (/ 1000000))
  /\ (correlation_matrix dim C <-> forall i, (i < dim)%nat -> / 1000000 <= B i i).
Proof.
  intros z dim Hd. destruct (random_cov_real z dim Hd) as (a & B & E & Ha & HP & _). set (s := fun i => sqrt (Rmax (B i i) (/ 1000000))).
  assert (Ps : forall i, 0 < s i) by (intros i; apply std_pos; lra).
  assert (Sq : forall i, s i * s i = Rmax (B i i) (/ 1000000)) by (intros i; apply sqrt_sqrt; pose proof (Rmax_r (B i i) (/ 1000000)); lra).
  assert (Bd : forall i j, (i < dim)%nat -> (j < dim)%nat -> -1 <= B i j / (s i * s j) <= 1).
  { intros i j Hi Hj. destruct (psd_minor dim B i j HP Hi Hj) as [D1 M]. destruct (psd_minor dim B j i HP Hj Hi) as [D2 _]. pose proof (Rmult_lt_0_compat _ _ (Ps i) (Ps j)) as P2.
    assert (Q : B i j * B i j <= (s i * s j) * (s i * s j)).
    { replace (s i * s j * (s i * s j)) with ((s i * s i) * (s j * s j)) by ring. rewrite !Sq. pose proof (Rmax_l (B i i) (/ 1000000)). pose proof (Rmax_l (B j j) (/ 1000000)). nra. }
    assert (- (s i * s j) <= B i j <= s i * s j) by (split; nra). split.
    - apply (Rmult_le_reg_r (s i * s j)); auto. unfold Rdiv. rewrite Rmult_assoc, Rinv_l by lra. lra.
    - apply (Rmult_le_reg_r (s i * s j)); auto. unfold Rdiv. rewrite Rmult_assoc, Rinv_l by lra. lra. }
  set (C := fun i j => B i j / (s i * s j)).
  assert (Er : exists r, random_cor z dim = Ok r /\ holds_matrix r dim C).
  { unfold random_cor. rewrite E. cbn [bind]. destruct Ha as (Ra & Ca & Ha). rewrite cov_to_cor_square by congruence. rewrite Ra. cbn [bind fst]. eexists. split; [reflexivity|]. split; [reflexivity|]. split; [reflexivity|]. cbn [at2].
    intros i j Hi Hj. rewrite !nth_seq_map by auto. rewrite !Ha by auto. unfold default_reg. rewrite !nmax_fin. rewrite !nsqrt_fin by (match goal with |- 0 <= Rmax ?x ?y => pose proof (Rmax_r x y); lra end).
    cbn [nmul]. fold (s i) (s j). rewrite ndiv_fin by (apply Rgt_not_eq, Rmult_lt_0_compat; apply Ps). apply clip1_id. apply Bd; auto. }
  destruct Er as (r & Er & Hr).
  assert (PC : psd dim C).
  { destruct HP as [Sy P]. split.
    - intros i j Hi Hj. unfold mtr, C. rewrite (Sy i j Hi Hj). unfold mtr. rewrite (Rmult_comm (s i)). reflexivity.
    - intros x. replace (quad dim C x) with (quad dim B (fun i => x i / s i)); [apply P|]. unfold quad, C. apply S_ext. intros i _. apply S_ext. intros j _. field. split; apply Rgt_not_eq, Ps. }
  assert (DC : forall i, (i < dim)%nat -> C i i = B i i / Rmax (B i i) (/ 1000000)) by (intros i Hi; unfold C; rewrite Sq; reflexivity).
  exists a, B, r, C. split; [auto|]. split; [auto|]. split; [auto|]. split; [auto|]. split; [auto|]. split; [auto|]. split; [auto|]. split.
  - intros [_ D] i Hi. specialize (D i Hi). rewrite DC in D by auto. destruct (Rle_dec (/ 1000000) (B i i)) as [|Hn]; [auto|]. exfalso. rewrite Rmax_right in D by lra. assert (B i i = / 1000000) by (apply (Rmult_eq_reg_r (/ / 1000000)); [unfold Rdiv in D; rewrite D; field|apply Rinv_neq_0_compat; lra]). lra.
  - intros H. split; [auto|]. intros i Hi. rewrite DC by auto. pose proof (H i Hi). rewrite Rmax_left by auto. field. lra.
Qed.
Print Assumptions C81_random_cor.
