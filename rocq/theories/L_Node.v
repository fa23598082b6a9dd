(** Induction over nodes. *)
From Verif Require Import Str M_Ast S_Node.

Lemma node_ind' (Q : node -> Prop) :
  (forall n, (forall c, In c (children n) -> Q c) -> Q n) -> forall n, Q n.
Proof.
  intros H. fix IH 1. intros n. apply H.
  destruct n; cbn [children]; intros ch Hc;
    try (match type of Hc with In _ ?l => is_var l; revert Hc; induction l as [|x r IHr];
           [intros []|intros [<-|Hc]; [apply IH|exact (IHr Hc)]] end);
    try (repeat (destruct Hc as [<-|Hc]; [apply IH|]); destruct Hc; fail).
  destruct Hc as [<-|Hc]; [apply IH|]. rewrite flat_map_app in Hc. apply in_app_or in Hc.
  destruct Hc as [Hc|Hc]; revert Hc.
  - induction post as [|[x y] r IHr]; cbn [flat_map app fst snd]; [intros []|].
    intros [<-|[<-|Hc]]; [apply IH|apply IH|exact (IHr Hc)].
  - induction pre as [|[x y] r IHr]; cbn [flat_map app fst snd]; [intros []|].
    intros [<-|[<-|Hc]]; [apply IH|apply IH|exact (IHr Hc)].
Qed.

Lemma node_all_inv P n : node_all P n -> P n /\ forall c, In c (children n) -> node_all P c.
Proof. intros H. now inversion H. Qed.

Lemma node_all_impl (P R : node -> Prop) n : (forall m, P m -> R m) -> node_all P n -> node_all R n.
Proof.
  intros HI. induction n as [n IH] using node_ind'. intros H. apply node_all_inv in H as [H1 H2].
  constructor; [now apply HI|]. intros c Hc. apply IH; auto.
Qed.
