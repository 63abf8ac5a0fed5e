From Coq Require Import List Arith Lia Bool Permutation.
From Verif Require Import Base LifeModel LifeSpec.
Import ListNotations.

Definition holds (h : heap) (L : list (nat * form)) : Prop := heap_ok h /\ Permutation (h_live h) L.
Definition own (f : form) (p : ptr) : list (nat * form) := match p with Blk b => [(b, f)] | _ => [] end.
Definition own_base (b : base) : list (nat * form) := own FNew (b_dist b) ++ own FNew (b_distf b) ++ own FMalloc (b_data b) ++ own FArr (b_tags b).
Fixpoint own_inners (l : list (ptr * base)) : list (nat * form) := match l with [] => [] | (p, b) :: l' => (own FNew p ++ own_base b) ++ own_inners l' end.

Lemma form_eqb_refl : forall f, form_eqb f f = true.
Proof. now intros []. Qed.
Lemma form_eqb_eq : forall f g, form_eqb f g = true -> f = g.
Proof. now intros [] []. Qed.

Lemma holds_perm : forall h L M, holds h L -> Permutation L M -> holds h M.
Proof. intros h L M (A & B) P. split; [exact A | now rewrite B]. Qed.

Lemma obtain_holds : forall f h L p h', obtain f h = (p, h') -> holds h L ->
  p = Blk (h_next h) /\ holds h' ((h_next h, f) :: L).
Proof.
  intros f h L p h' E ((A & B) & P). unfold obtain in E. inversion E; subst. split; [reflexivity|].
  split; [split|]; cbn.
  - constructor; [|exact A]. intros I. apply in_map_iff in I as ([b g] & Eb & Ib). cbn in Eb. subst. specialize (B _ _ Ib). lia.
  - intros b g [I|I]; [inversion I; lia | specialize (B _ _ I); lia].
  - now rewrite P.
Qed.

Lemma drop_in : forall l b f, NoDup (map fst l) -> In (b, f) l -> exists l', drop_block b f l = Some l' /\ Permutation l ((b, f) :: l').
Proof.
  induction l as [|[b' f'] l IH]; intros b f N I; [destruct I|]. cbn in N. inversion N as [|? ? N1 N2]; subst. cbn.
  destruct (Nat.eqb_spec b' b) as [->|D].
  - destruct I as [I|I].
    + inversion I; subst. rewrite form_eqb_refl. eauto.
    + exfalso. apply N1. apply in_map_iff. now exists (b, f).
  - destruct I as [I|I]; [inversion I; congruence|]. destruct (IH b f N2 I) as (l' & E & P). rewrite E.
    eexists; split; [reflexivity|]. rewrite P. constructor.
Qed.
Lemma drop_out : forall l b f, ~ In b (map fst l) -> drop_block b f l = None.
Proof.
  induction l as [|[b' f'] l IH]; intros b f N; [reflexivity|]. cbn in *. destruct (Nat.eqb_spec b' b); [tauto|]. rewrite IH by tauto. reflexivity.
Qed.
Lemma drop_wrong : forall l b f g, NoDup (map fst l) -> In (b, g) l -> f <> g -> drop_block b f l = None.
Proof.
  induction l as [|[b' f'] l IH]; intros b f g N I D; [destruct I|]. cbn in N. inversion N as [|? ? N1 N2]; subst. cbn.
  destruct (Nat.eqb_spec b' b) as [->|D2].
  - destruct I as [I|I].
    + inversion I; subst. destruct (form_eqb g f) eqn:E; [apply form_eqb_eq in E; congruence | reflexivity].
    + exfalso. apply N1. apply in_map_iff. now exists (b, g).
  - destruct I as [I|I]; [inversion I; congruence|]. now rewrite (IH b f g N2 I D).
Qed.

Lemma release_blk : forall f b h L, holds h ((b, f) :: L) -> exists h', release f (Blk b) h = Ok h' /\ holds h' L /\ h_next h' = h_next h.
Proof.
  intros f b h L ((A & B) & P). assert (In (b, f) (h_live h)) as I by (rewrite P; now left).
  destruct (drop_in _ _ _ A I) as (l' & E & Q). cbn. rewrite E. eexists; split; [reflexivity|]. split; [|reflexivity]. split; [split|]; cbn.
  - rewrite Q in A. cbn in A. now inversion A.
  - intros c g Ic. apply (B c g). rewrite Q. now right.
  - apply (Permutation_cons_inv (a := (b, f))). now rewrite <- Q, P.
Qed.
Lemma release_own : forall f p h L, p <> Wild -> holds h (own f p ++ L) -> exists h', release f p h = Ok h' /\ holds h' L.
Proof.
  intros f [| |b] h L W H; [congruence | now exists h |]. destruct (release_blk f b h L H) as (h' & A & B & _). now exists h'.
Qed.
Lemma release_gone : forall f b h L, holds h L -> ~ In b (map fst L) -> release f (Blk b) h = UB.
Proof.
  intros f b h L (_ & P) N. cbn. rewrite drop_out; [reflexivity|]. intros I. apply N. now rewrite <- P.
Qed.
Lemma release_wrong : forall f g b h L, holds h L -> In (b, g) L -> f <> g -> release f (Blk b) h = UB.
Proof.
  intros f g b h L ((A & _) & P) I D. cbn. rewrite (drop_wrong _ b f g); auto. now rewrite P.
Qed.
Lemma release_cases : forall f p h, release f p h = UB \/ exists h', release f p h = Ok h'.
Proof. intros f [| |b] h; cbn; eauto. destruct (drop_block b f (h_live h)); eauto. Qed.

Definition sing (a : nat * form) : list (nat * form) := [a].
Lemma cons_sing : forall a l, a :: l = sing a ++ l.
Proof. reflexivity. Qed.
Lemma rotate : forall (l y r : list (nat * form)), Permutation l (r ++ y) -> Permutation l (y ++ r).
Proof. intros l y r P. rewrite P. apply Permutation_app_comm. Qed.
Ltac flat := repeat rewrite cons_sing; repeat rewrite <- app_assoc; repeat rewrite app_nil_r; cbn [app].
Ltac perm_step := match goal with
  | |- Permutation ?x ?x => reflexivity
  | |- Permutation (?x ++ _) (?x ++ _) => apply Permutation_app_head
  | |- Permutation _ (_ ++ _) => apply rotate; repeat rewrite <- app_assoc
  end.
Ltac perm := flat; do 60 (try perm_step).

(** ** The base class *)
Definition goodb (b : base) : Prop := (exists x, b_dist b = Blk x) /\ b_distf b <> Wild /\ b_tags b <> Wild.
Definition has (b : base) : Prop := b_data b <> Wild.

Lemma destroy_base_ok : forall b h L, goodb b -> has b -> holds h (own_base b ++ L) -> exists h', destroy_base b h = Ok h' /\ holds h' L.
Proof.
  intros b h L ((x & D) & E & T) W H. unfold own_base in H. rewrite <- !app_assoc in H. unfold destroy_base.
  destruct (release_own FNew (b_dist b) h _ ltac:(congruence) H) as (h1 & -> & H1). cbn.
  destruct (release_own _ _ _ _ E H1) as (h2 & -> & H2). cbn.
  destruct (release_own _ _ _ _ W H2) as (h3 & -> & H3). cbn.
  exact (release_own _ _ _ _ T H3).
Qed.
Lemma destroy_base_cases : forall b h, destroy_base b h = UB \/ exists h', destroy_base b h = Ok h'.
Proof.
  intros b h. unfold destroy_base.
  destruct (release_cases FNew (b_dist b) h) as [-> | (h1 & ->)]; cbn; [auto|].
  destruct (release_cases FNew (b_distf b) h1) as [-> | (h2 & ->)]; cbn; [auto|].
  destruct (release_cases FMalloc (b_data b) h2) as [-> | (h3 & ->)]; cbn; [auto|]. apply release_cases.
Qed.
Lemma destroy_base_wild : forall b h, b_data b = Wild -> destroy_base b h = UB.
Proof.
  intros b h W. unfold destroy_base. rewrite W.
  destruct (release_cases FNew (b_dist b) h) as [-> | (h1 & ->)]; cbn; [auto|].
  destruct (release_cases FNew (b_distf b) h1) as [-> | (h2 & ->)]; cbn; auto.
Qed.


(** What a load loses hold of. *)
Definition spill (f : files) (b : base) : list (nat * form) :=
  if data_ok f then own FMalloc (b_data b) ++ (if tags_ok f then own FArr (b_tags b) else []) else [].

Lemma base_load_ok : forall f b h L b' h', base_load f b h = Done (b', h') \/ base_load f b h = Threw (b', h') ->
  goodb b -> holds h (own_base b ++ L) ->
  goodb b' /\ holds h' (own_base b' ++ spill f b ++ L) /\ (has b -> has b') /\ (data_ok f = true -> has b') /\ (data_ok f = false -> b' = b) /\
  b_dist b' = b_dist b /\ b_distf b' = b_distf b.
Proof.
  intros f b h L b' h' R G H. pose proof G as ((x & D) & E & T). unfold base_load in R. unfold spill.
  destruct (data_ok f).
  2:{ destruct R as [R|R]; inversion R; subst; (split; [exact G|]; repeat match goal with |- _ /\ _ => split end; auto; discriminate). }
  destruct (obtain FMalloc h) as [p h1] eqn:O1. destruct (obtain_holds _ _ _ _ _ O1 H) as (-> & H1).
  destruct (tags_ok f).
  - destruct (obtain FArr h1) as [q h2] eqn:O2. destruct (obtain_holds _ _ _ _ _ O2 H1) as (-> & H2).
    assert (b' = mkBase (b_dist b) (b_distf b) (Blk (h_next h)) (Blk (h_next h1)) /\ h' = h2) as (-> & ->).
    { destruct (counts_ok f); [|now destruct R]. destruct (f_rest f); cbn in R; destruct R as [R|R]; inversion R; auto. }
    unfold goodb, has, own_base in *; cbn in *. repeat match goal with |- _ /\ _ => split end; eauto; try congruence.
    eapply holds_perm; [exact H2|]. repeat rewrite <- app_assoc. cbn.
    perm.
  - assert (b' = mkBase (b_dist b) (b_distf b) (Blk (h_next h)) (b_tags b) /\ h' = h1) as (-> & ->) by (destruct R as [R|R]; inversion R; auto).
    unfold goodb, has, own_base in *; cbn in *. repeat match goal with |- _ /\ _ => split end; eauto; try congruence.
    eapply holds_perm; [exact H1|]. repeat rewrite <- app_assoc. cbn.
    perm.
Qed.
