(** * A concrete RelativeNG: eleven points on a line, two of them equal. *)
From Coq Require Import ZArith SpecFloat String List Arith Lia Bool Sorting.Permutation.
From Verif Require Import Base Float32 Float32Facts PoolModel SortInst FilterSpec SearchModel PruneModel RngModel RngSpec.
Import ListNotations.

Definition rng_pos (i : nat) : Z := nth i [0; 7; 3; 12; 3; 20; 1; 31; 5; 44; 9]%Z 60%Z.
Definition rng_pd (a b : nat) : f32 := f32_of_Z ((rng_pos a - rng_pos b) * (rng_pos a - rng_pos b)).
Definition rng_space : space := mkSp 11 rng_pd false (mkL [] true "0"%string).
(** The same with labels: "a" on even points, "b" on odd ones. *)
Definition rng_lspace : space :=
  mkSp 11 rng_pd true (mkL (map (fun i => if Nat.even i then ["a"%string] else ["b"%string]) (seq 0 11)) true "0"%string).
Definition rng_order : list nat := [10; 3; 0; 1; 2; 9; 8; 7; 6; 5; 4].
Definition rng_centroid : list f32 := map (fun i => rng_pd i 1) (seq 0 11).

Lemma rng_pos_vals : forall i, In (rng_pos i) [0; 7; 3; 12; 20; 1; 31; 5; 44; 9; 60]%Z.
Proof.
  intros i. unfold rng_pos. do 11 (destruct i as [|i]; [cbn; tauto|]). destruct i; cbn; tauto.
Qed.

Lemma rng_input_ok_any : forall f lc, (f = true -> length (pts_to_labels lc) = 11) ->
  rng_input_ok isort (mkSp 11 rng_pd f lc) (map (fun i => 100 + i) (seq 0 11)) rng_centroid rng_order.
Proof.
  intros f lc Hf. constructor; try reflexivity; auto.
  - exact isort_sorts.
  - cbn. lia.
  - intros a b. apply f32_of_Z_not_nan.
  - intros d Hd. apply in_map_iff in Hd. destruct Hd as [i [<- _]]. apply f32_of_Z_not_nan.
  - apply NoDup_Permutation; [|apply seq_NoDup|].
    * unfold rng_order. repeat (constructor; [cbn; intuition lia|]). constructor.
    * intros x. unfold rng_order. rewrite in_seq. cbn. lia.
Qed.

Lemma rng_pd_dissimilarity : dissimilarity rng_pd.
Proof.
  constructor; intros a; unfold rng_pd.
  - intros b. f_equal. lia.
  - intros b. pose proof (rng_pos_vals a) as Ha. pose proof (rng_pos_vals b) as Hb. revert Ha Hb.
    generalize (rng_pos a) (rng_pos b). intros u v Hu Hv. cbn in Hu, Hv.
    repeat (destruct Hu as [<-|Hu]; [repeat (destruct Hv as [<-|Hv]; [reflexivity|]); destruct Hv|]). destruct Hu.
  - intros b. pose proof (rng_pos_vals a) as Ha. pose proof (rng_pos_vals b) as Hb. revert Ha Hb.
    generalize (rng_pos a) (rng_pos b). intros u v Hu Hv. cbn in Hu, Hv.
    repeat (destruct Hu as [<-|Hu]; [repeat (destruct Hv as [<-|Hv]; [reflexivity|]); destruct Hv|]). destruct Hu.
  - rewrite Z.sub_diag. reflexivity.
Qed.

Lemma rng_filter_witness : exists sortf sp tags centroid order ix md dist L f ind dst ind' dst' cnt id labels,
  rng_input_ok sortf sp tags centroid order /\ rng_build sortf sp tags centroid order = Ok (ix, md) /\
  rng_search sortf ix dist L 1 [f] ind dst = Ok (ind', dst', cnt) /\ cnt = 1 /\
  nth_error ind' 0 = nth_error tags id /\ NoDup tags /\ nth_error (pts_to_labels (sp_labels sp)) id = Some labels /\
  ~ matches (universal_of (sp_labels sp)) [f] labels.
Proof.
  exists isort, rng_lspace, (map (fun i => 100 + i) (seq 0 11)), rng_centroid, rng_order.
  eexists. eexists. exists (fun id => rng_pd id 2), 4, "b"%string, [0], [f32_zero].
  eexists. eexists. eexists. exists 2, ["a"%string].
  split; [apply rng_input_ok_any; reflexivity|]. split; [vm_compute; reflexivity|]. split; [vm_compute; reflexivity|].
  split; [reflexivity|]. split; [reflexivity|].
  split; [|split; [reflexivity|]].
  - cbn. repeat (constructor; [cbn; intuition lia|]). constructor.
  - unfold universal_of. cbn. intros [C|[[x [H1 H2]]|[u [H [C|C]]]]].
    + discriminate C.
    + cbn in H1, H2. destruct H1 as [<-|[]]. destruct H2 as [C|[]]. discriminate C.
    + assert (u = "0"%string) by congruence. subst. destruct C as [C|[]]. discriminate C.
    + assert (u = "0"%string) by congruence. subst. destruct C as [C|[]]. discriminate C.
Qed.
