(** What configuration values mean. *)
From Verif Require Import Base BitsModel StrBase IsoModel IsoSpec NetaddrModel NetaddrSpec StringModel StringSpec CfgValModel.

(** texts equal without case *)
Definition same_text (a b : bytes) : Prop := map tolower a = map tolower b.

(** ** Bitmaps: the elements of the list change a set of numbers one after the other *)
Inductive bit_word : bytes -> (Z -> bool) -> (Z -> bool) -> Prop :=
| bw_all v s : same_text v (zs "all") -> bit_word v s (fun _ => true)
| bw_none v s : same_text v (zs "none") -> bit_word v s (fun _ => false)
| bw_in v s n : v <> [] -> digits v -> n = place_val v -> n <= 255 -> bit_word v s (fun i => (i =? n) || s i)
| bw_out v s n : v <> [] -> digits v -> n = place_val v -> n <= 255 -> bit_word (45 :: v) s (fun i => negb (i =? n) && s i).
Inductive bit_words : list bytes -> (Z -> bool) -> (Z -> bool) -> Prop :=
| bws_nil s : bit_words [] s s
| bws_cons v vs s s' s'' : bit_word v s s' -> bit_words vs s' s'' -> bit_words (v :: vs) s s''.

(** ** Tokens *)
(** words that fit into the buffer *)
Definition short (w : bytes) : Prop := zlen w <= 255 /\ no_nul w.
(** entry by entry *)
Fixpoint checks (es : list tentry) (ws : list bytes) : bool :=
  match es, ws with e :: es', w :: ws' => te_check e w && checks es' ws' | _, _ => true end.
Fixpoint converted (i : Z) (es : list tentry) (ws : list bytes) : list (Z * bytes) :=
  match es, ws with
  | e :: es', w :: ws' => (if te_bin e then [(i, w)] else []) ++ converted (i + 1) es' ws'
  | _, _ => []
  end.
