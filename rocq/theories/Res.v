(** Outcome of a model function: a value, an error that was queued or printed (so assembly fails),
    or undefined behaviour of the C++ code. *)

Inductive res (A : Type) : Type :=
| ROk (a : A)
| RErr
| RUb.
Arguments ROk {A} a.
Arguments RErr {A}.
Arguments RUb {A}.

Definition rbind {A B} (r : res A) (f : A -> res B) : res B :=
  match r with ROk a => f a | RErr => RErr | RUb => RUb end.

Notation "'do' x <- a ; b" := (rbind a (fun x => b))
  (at level 200, x name, a at level 100, b at level 200).
Notation "'do' ' p <- a ; b" := (rbind a (fun p => b))
  (at level 200, p strict pattern, a at level 100, b at level 200).

Lemma rbind_ok : forall A B (r : res A) (f : A -> res B) b,
  rbind r f = ROk b -> exists a, r = ROk a /\ f a = ROk b.
Proof. intros A B [a| |] f b H; cbn in H; try discriminate; eauto. Qed.
