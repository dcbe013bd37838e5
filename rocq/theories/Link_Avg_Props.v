(** Average and weighted linkage depend on more than the order of the distances (C113). *)
From Coq Require Import Reals Lra Psatz String List Arith Lia Bool ZArith Permutation.
From Verif Require Import Base Num Sums Sim_Model Dist_Model Dist_Spec Dist_Proofs Dist_Props Dist_More_Props Info_Model Feat_Model Clust_Model Clust_Spec Link_Model Link_Spec Link_Tree Link_Run Link_Cut_Props Link_Sep Link_Rows_Props Link_Recover_Props Link_Data_Props Link_Same.
Import ListNotations.
Open Scope R_scope.
From Verif Require Import Link_Same_Props.
Definition four (p : R) (i j : nat) : R :=
  match Nat.min i j, Nat.max i j with
  | 0%nat, 1%nat => 1 | 0%nat, 2%nat => 2 | 1%nat, 2%nat => p | 2%nat, 3%nat => 5 | 0%nat, 3%nat => 20 | 1%nat, 3%nat => 20 | _, _ => 0
  end.
Definition four_matrix (p : R) : arr2 := mkArr 4 4 (fun i j => Fin (four p i j)).
Lemma four_distances : forall p, 0 <= p -> distance_matrix (OArr2 (four_matrix p)) 4 (four p).
Proof.
  intros p Hp. split; [lia|]. split; [exists (four_matrix p); split; [now left|]; repeat split|].
  intros i j Hi Hj. do 4 (destruct i as [|i]; [do 4 (destruct j as [|j]; [cbn; repeat split; lra|]); lia|]). lia.
Qed.
Lemma four_order : same_order 4 (four 10) (four 7).
Proof.
  intros i j k l Hi Hj Hk Hl N1 N2. assert (C : forall a, (a < 4)%nat -> a = 0%nat \/ a = 1%nat \/ a = 2%nat \/ a = 3%nat) by (intros; lia).
  destruct (C i Hi) as [->|[->|[->| ->]]], (C j Hj) as [->|[->|[->| ->]]]; try lia; destruct (C k Hk) as [->|[->|[->| ->]]], (C l Hl) as [->|[->|[->| ->]]]; try lia; cbn; split; intros; lra.
Qed.

Lemma four_run : forall m p zs, m = Average \/ m = Weighted -> p = 10 \/ p = 7 -> link_run m 4 (start 4 (four p)) zs ->
  cut_tree zs 2 = Ok (if Req_EM_T p 10 then [0; 0; 1; 1] else [0; 0; 0; 1])%nat.
Proof.
  intros m p zs Hm Hp Hrun.
  inversion Hrun as [? ? ? Ha|new c x y rows Hx Hy Nxy Hmin Hrest]; subst; [discriminate Ha|]. clear Hrun. cbn [start active cdist csize seq] in Hx, Hy, Hmin.
  pose proof (Hmin 0%nat 1%nat ltac:(cbn; auto) ltac:(cbn; auto) ltac:(lia)) as M1. clear Hmin.
  assert (X : (x = 0 /\ y = 1 \/ x = 1 /\ y = 0)%nat).
  { cbv [In] in Hx, Hy. destruct Hx as [<-|[<-|[<-|[<-|[]]]]], Hy as [<-|[<-|[<-|[<-|[]]]]]; try lia; cbn in M1; exfalso; destruct Hp; lra. }
  inversion Hrest as [? ? w Ha|new' c' u v rows' Hu Hv Nuv Hmin' Hrest']; subst; [destruct X as [[-> ->]|[-> ->]]; discriminate Ha|]. clear Hrest.
  assert (A1 : active (merge m (start 4 (four p)) x y 4) = [2; 3; 4]%nat) by (destruct X as [[-> ->]|[-> ->]]; reflexivity). rewrite A1 in Hu, Hv, Hmin'.
  assert (D23 : cdist (merge m (start 4 (four p)) x y 4) 2 3 = 5 /\ cdist (merge m (start 4 (four p)) x y 4) 3 2 = 5) by (split; reflexivity).
  assert (D42 : cdist (merge m (start 4 (four p)) x y 4) 4 2 = (2 + p) / 2 /\ cdist (merge m (start 4 (four p)) x y 4) 2 4 = (2 + p) / 2).
  { destruct X as [[-> ->]|[-> ->]]; destruct Hm as [->| ->]; split; cbn; field. }
  assert (D43 : cdist (merge m (start 4 (four p)) x y 4) 4 3 = 20 /\ cdist (merge m (start 4 (four p)) x y 4) 3 4 = 20).
  { destruct X as [[-> ->]|[-> ->]]; destruct Hm as [->| ->]; split; cbn; field. }
  assert (D01 : cdist (start 4 (four p)) x y = 1) by (destruct X as [[-> ->]|[-> ->]]; reflexivity).
  pose proof (Hmin' 2%nat 3%nat ltac:(cbn; auto) ltac:(cbn; auto) ltac:(lia)) as M2. pose proof (Hmin' 4%nat 2%nat ltac:(cbn; auto) ltac:(cbn; auto) ltac:(lia)) as M3. clear Hmin'. rewrite (proj1 D23) in M2. rewrite (proj1 D42) in M3.
  inversion Hrest' as [? ? w Ha|new'' c'' a b rows'' Hu' Hv' Nab _ Hrest'']; subst.
  { exfalso. unfold merge in Ha at 1. cbv zeta in Ha. cbn [active] in Ha. rewrite A1 in Ha. cbv [In] in Hu, Hv. destruct Hu as [<-|[<-|[<-|[]]]], Hv as [<-|[<-|[<-|[]]]]; try lia; discriminate Ha. }
  clear Hrest'. rewrite D01. clear D01.
  assert (A2 : exists z, active (merge m (merge m (start 4 (four p)) x y 4) u v 5) = [z; 5]%nat /\ (p = 10 /\ z = 4%nat /\ (u = 2 /\ v = 3 \/ u = 3 /\ v = 2)%nat \/ p = 7 /\ z = 3%nat /\ (u = 4 /\ v = 2 \/ u = 2 /\ v = 4)%nat)).
  { cbv [In] in Hu, Hv. destruct D23 as [E1 E2], D42 as [E3 E4], D43 as [E5 E6]. 
    destruct Hu as [<-|[<-|[<-|[]]]], Hv as [<-|[<-|[<-|[]]]]; try lia; rewrite ?E1, ?E2, ?E3, ?E4, ?E5, ?E6 in M2, M3; try (exfalso; destruct Hp; lra);
    (eexists; split; [unfold merge at 1; cbv zeta; cbn [active]; rewrite A1; reflexivity|]); destruct Hp as [->| ->]; try (exfalso; lra); auto 8. }
  destruct A2 as (z & A2 & Z). rewrite A2 in Hu', Hv'.
  assert (AB : (a = z /\ b = 5 \/ a = 5 /\ b = z)%nat) by (cbv [In] in Hu', Hv'; lia).
  assert (R0 : rows'' = []).
  { inversion Hrest'' as [|? ? a' b' ? Ha Hb Nab' ? ?]; subst; [reflexivity|]. exfalso. apply Nab'. unfold merge in Ha, Hb at 1. cbv zeta in Ha, Hb. cbn [active] in Ha, Hb. 
    assert (Q : active (merge m (merge m (merge m (start 4 (four p)) x y 4) u v 5) a b 6) = [6]%nat) by (unfold merge at 1; cbv zeta; cbn [active]; rewrite A2; destruct Z as [(_ & -> & _)|(_ & -> & _)]; destruct AB as [[-> ->]|[-> ->]]; reflexivity).
    change (In a' (active (merge m (merge m (merge m (start 4 (four p)) x y 4) u v 5) a b 6))) in Ha. change (In b' (active (merge m (merge m (merge m (start 4 (four p)) x y 4) u v 5) a b 6))) in Hb. rewrite Q in Ha, Hb. cbn in Ha, Hb. lia. }
  subst rows''. clear Hrest'' Hu Hv Hu' Hv' M1.
  assert (HH : 12 <= cdist (merge m (merge m (start 4 (four p)) x y 4) u v 5) a b).
  { destruct D23 as [E1 E2], D42 as [E3 E4], D43 as [E5 E6].
    assert (C4 : csize (merge m (start 4 (four p)) x y 4) 4 = 2%nat) by reflexivity. assert (C2 : csize (merge m (start 4 (four p)) x y 4) 2 = 1%nat) by reflexivity. assert (C3 : csize (merge m (start 4 (four p)) x y 4) 3 = 1%nat) by reflexivity.
    set (c1 := merge m (start 4 (four p)) x y 4) in *. clearbody c1.
    destruct Z as [(-> & -> & [[-> ->]|[-> ->]])|(-> & -> & [[-> ->]|[-> ->]])]; destruct AB as [[-> ->]|[-> ->]]; destruct Hm as [->| ->]; cbn; rewrite ?E1, ?E2, ?E3, ?E4, ?E5, ?E6, ?C2, ?C3, ?C4; cbn; lra. }
  set (H3 := cdist (merge m (merge m (start 4 (four p)) x y 4) u v 5) a b) in *. clearbody H3.
  assert (HU : cdist (merge m (start 4 (four p)) x y 4) u v = if Req_EM_T p 10 then 5 else 9 / 2).
  { destruct (Req_EM_T p 10) as [Ep|Ep]; destruct Z as [(Ep' & _ & Z)|(Ep' & _ & Z)]; try lra; [destruct Z as [[-> ->]|[-> ->]]; apply D23|]. destruct Z as [[-> ->]|[-> ->]]; [rewrite (proj1 D42)|rewrite (proj2 D42)]; subst p; lra. }
  rewrite HU. clear D23 D42 D43 A1 A2 M2 M3 HU.
  unfold cut_tree. cbn [existsb r_height]. destruct (Rlt_dec 1 0) as [C|_]; [lra|]. destruct (Req_EM_T p 10) as [Ep|Ep].
  - destruct (Rlt_dec 5 0) as [C|_]; [lra|]. destruct (Rlt_dec H3 0) as [C|_]; [lra|]. cbn [orb].
    destruct Z as [(_ & -> & Z)|(Ep' & _)]; [|lra]. destruct X as [[-> ->]|[-> ->]]; destruct Z as [[-> ->]|[-> ->]]; destruct AB as [[-> ->]|[-> ->]]; cbn;
      repeat (match goal with |- context [Rlt_dec ?q ?r] => destruct (Rlt_dec q r) as [?|?]; try (exfalso; lra) end; cbn); reflexivity.
  - destruct (Rlt_dec (9 / 2) 0) as [C|_]; [lra|]. destruct (Rlt_dec H3 0) as [C|_]; [lra|]. cbn [orb].
    destruct Z as [(Ep' & _)|(_ & -> & Z)]; [lra|]. destruct X as [[-> ->]|[-> ->]]; destruct Z as [[-> ->]|[-> ->]]; destruct AB as [[-> ->]|[-> ->]]; cbn;
      repeat (match goal with |- context [Rlt_dec ?q ?r] => destruct (Rlt_dec q r) as [?|?]; try (exfalso; lra) end; cbn); reflexivity.
Qed.

(** Two matrices whose entries stand in the same order: with single or complete linkage the clusters agree ([C113_ranks]); with average or weighted
    linkage, whatever linkage function of scipy's documentation is used, the two clusters are {0, 1}, {2, 3} for one and {0, 1, 2}, {3} for the other. *)
Theorem C113_average_ranks_refuted : exists dist dist' D D', distance_matrix dist 4 D /\ distance_matrix dist' 4 D' /\ same_order 4 D D' /\
  forall s oo F F', s = "average"%string \/ s = "weighted"%string -> possible_clusters dist s oo F -> possible_clusters dist' s oo F' ->
    F 2%Z = Ok [Fin 0; Fin 0; Fin 1; Fin 1] /\ F' 2%Z = Ok [Fin 0; Fin 0; Fin 0; Fin 1].
Proof.
  exists (OArr2 (four_matrix 10)), (OArr2 (four_matrix 7)), (four 10), (four 7). pose proof (four_distances 10 ltac:(lra)) as H10. pose proof (four_distances 7 ltac:(lra)) as H7. split; [exact H10|]. split; [exact H7|]. split; [exact four_order|].
  intros s oo F F' Hs (lk & HL & HF) (lk' & HL' & HF').
  assert (M : exists m, method_of s = Some m /\ (m = Average \/ m = Weighted)) by (destruct Hs as [->| ->]; eexists; (split; [reflexivity|auto])). destruct M as (m & Em & Hm).
  destruct (link_result_D lk _ 4 _ s oo m HL H10 Em) as (zs & El & Hrun). destruct (link_result_D lk' _ 4 _ s oo m HL' H7 Em) as (zs' & El' & Hrun').
  rewrite HF, HF'. unfold hc_get_clusters, hc_get_linkage. cbn [hc_linkage hc_dist hc_linkage_method hc_optimal_ordering link scipy_with]. rewrite El, El'. cbn [fst cuttree scipy_with].
  rewrite (four_run m 10 zs Hm (or_introl eq_refl) Hrun), (four_run m 7 zs' Hm (or_intror eq_refl) Hrun'). destruct (Req_EM_T 10 10); [|lra]. destruct (Req_EM_T 7 10); [lra|]. split; reflexivity.
Qed.
Print Assumptions C113_average_ranks_refuted.
(** there are such clusters: those of one linkage function *)
Example C113_average_ranks_example : exists F F', possible_clusters (OArr2 (four_matrix 10)) "average" false F /\ possible_clusters (OArr2 (four_matrix 7)) "average" false F'.
Proof. eexists _, _. split; exists greedy_linkage; (split; [exact C106_linkage_exists|reflexivity]). Qed.
