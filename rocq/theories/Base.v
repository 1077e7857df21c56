(** Small list lemmas missing from the 8.16 standard library. *)
From Coq Require Import List Arith Lia.
Import ListNotations.

Lemma skipn_skipn_add {A} : forall n m (l : list A),
  skipn n (skipn m l) = skipn (m + n) l.
Proof.
  intros n m. revert n. induction m as [|m IH]; intros n l; [reflexivity|].
  destruct l as [|a l]; [cbn; destruct n; reflexivity|]. cbn. apply IH.
Qed.

Lemma skipn_map_c {A B} (g : A -> B) : forall n l,
  skipn n (map g l) = map g (skipn n l).
Proof.
  induction n as [|n IH]; intros l; [reflexivity|].
  destruct l as [|a l]; [reflexivity|]. cbn. apply IH.
Qed.
