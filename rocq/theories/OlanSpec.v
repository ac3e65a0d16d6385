(** What the lines of the configuration mean. *)
From Verif Require Import Base CodecModel OlanModel.

(** the last of the parameters of a kind counts *)
Definition given {A} (f : word -> option A) (ws : list word) (dflt v : A) : Prop :=
  (exists a w b, ws = a ++ w :: b /\ f w = Some v /\ forall x, In x b -> f x = None) \/ ((forall x, In x ws -> f x = None) /\ v = dflt).
Definition w_metric w := match w with Metric n => Some n | _ => None end.
Definition w_dist w := match w with Dist n => Some n | _ => None end.
Definition w_src w := match w with Source a _ => Some a | _ => None end.
(** [None]: all domains *)
Definition w_dom w := match w with Domain n => Some (Some n) | AllDomains => Some None | _ => None end.
(** a correct line: numbers in their ranges, correct source prefixes, known parameters *)
Definition word_ok (w : word) : Prop :=
  match w with
  | Metric n => METRIC_MIN <= n <= METRIC_MAX
  | Domain n | Dist n => 0 <= n <= 255
  | AllDomains => True
  | Source _ ok => ok = true
  | Other => False
  end.
Definition line_ok (l : line) : Prop := Forall word_ok (n_words l).
(** the line means the network [k] in the domain [d], with a metric and a distance *)
Definition means (l : line) (d : Z) (k : key) (m x : Z) : Prop :=
  fst k = n_dst l /\ given w_src (n_words l) 0 (snd k) /\ (given w_dom (n_words l) None None \/ given w_dom (n_words l) None (Some d)) /\
  given w_metric (n_words l) 1 m /\ given w_dist (n_words l) 2 x.
(** the last line for a network and a domain counts *)
Definition exact (doms : list Z) (ls : list line) (s : st) : Prop := forall d k m x, In (d, k, (m, x)) (s_ann s) <->
  In d doms /\ exists a l b, ls = a ++ l :: b /\ means l d k m x /\ forall l' m' x', In l' b -> ~ means l' d k m' x'.
(** the lines name only these domains *)
Definition known (doms : list Z) (l : line) : Prop := forall n, In (Domain n) (n_words l) -> In n doms.
