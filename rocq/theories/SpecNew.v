(** What Validate answers, without the messages. *)
From Verif Require Import Num ModelBase ModelValidate.

(** Validate returned true. *)
Definition accepted (c : Check) : bool := fst c.
Definition answer (c : outcome Check) : outcome bool := omap fst c.
Definition result {A : Type} (c : outcome (Check * A)) : outcome bool := omap (fun x => fst (fst x)) c.
