(** * server/Negotiator.h *)
From Verif Require Import Base.

(** std::find(...) != end *)
Definition mem (x : N) (l : list N) : bool := existsb (N.eqb x) l.

(** The loop over client preferences within one tier (Negotiator.h:35-40) *)
Fixpoint first_in (tier client : list N) : option N :=
  match client with
  | [] => None
  | p :: r => if mem p tier then Some p else first_in tier r
  end.
(** negotiate, tiered (Negotiator.h:24-44) *)
Fixpoint negotiate_tiers (server : list (list N)) (client : list N) : option N :=
  match server with
  | [] => None
  | tier :: rest =>
      match (match tier with
             | [x] => if mem x client then Some x else None
             | _ => first_in tier client
             end) with
      | Some v => Some v
      | None => negotiate_tiers rest client
      end
  end.
(** negotiate, flat (Negotiator.h:50-61) *)
Fixpoint negotiate (server client : list N) : option N :=
  match server with
  | [] => None
  | p :: r => if mem p client then Some p else negotiate r client
  end.
