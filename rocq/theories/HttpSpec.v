(** What HTTP requests, URIs and paths mean. *)
From Verif Require Import Base StrBase StringSpec HttpModel.

(** ** Requests *)
(** no zero and none of [bad] *)
Definition free (bad : bytes) (w : bytes) : Prop := Forall (fun c => c <> 0 /\ ~ In c bad) w.
Definition blanks (w : bytes) : Prop := Forall (fun c => c = 32 \/ c = 9) w.
(** ends of lines *)
Definition CRLF : bytes := [13; 10].
Definition LF : bytes := [10].
Definition is_eol (e : bytes) : Prop := e = CRLF \/ e = LF.
(** [Fields e t fs]: the lines of [t] are the fields [fs] *)
Inductive Fields (e : bytes) : bytes -> list (bytes * bytes) -> Prop :=
| Fields_nil : Fields e [] []
| Fields_cons name bl value t fs :
    free [58; 32; 9; 10; 13] name -> blanks bl -> free [10; 13] value -> (forall c r, value = c :: r -> c <> 32 /\ c <> 9) ->
    Fields e t fs -> Fields e (name ++ 58 :: bl ++ value ++ e ++ t) ((name, value) :: fs).
(** [t] is the head of a request, up to the blank line *)
Definition Request (e t method uri version : bytes) (fs : list (bytes * bytes)) : Prop :=
  is_eol e /\ free [32; 10; 13] method /\ free [32; 10; 13] uri /\ free [10; 13] version /\
  exists ft, Fields e ft fs /\ t = method ++ 32 :: uri ++ 32 :: version ++ e ++ ft ++ e.

(** ** URIs *)
Definition hex_value (c v : Z) : Prop := 48 <= c <= 57 /\ v = c - 48 \/ 65 <= c <= 70 /\ v = c - 65 + 10 \/ 97 <= c <= 102 /\ v = c - 97 + 10.
(** percent encoding *)
Inductive Encoded : bytes -> bytes -> Prop :=
| Enc_nil : Encoded [] []
| Enc_plain c t s : c <> 37 -> Encoded t s -> Encoded (c :: t) (c :: s)
| Enc_hex a b x y t s : hex_value a x -> hex_value b y -> Encoded t s -> Encoded (37 :: a :: b :: t) (16 * x + y :: s).
(** name=value&name=value... *)
Inductive Params : bytes -> list (bytes * bytes) -> Prop :=
| Params_one n v : n <> [] -> free [38; 61] n -> free [38] v -> Params (n ++ 61 :: v) [(n, v)]
| Params_cons n v t ps : n <> [] -> free [38; 61] n -> free [38] v -> Params t ps -> Params (n ++ 61 :: v ++ 38 :: t) ((n, v) :: ps).

(** ** Paths *)
Definition same_case (a b : bytes) : Prop := map tolower a = map tolower b.
(** [h] is responsible for [uri]: the same path, a directory above it, or the directory itself without the slash *)
Definition responsible (h : handler) (uri : bytes) : Prop :=
  same_case (h_site h) uri \/
  (exists d x y, h_site h = d ++ [47] /\ uri = x ++ y /\ same_case (d ++ [47]) x) \/
  exists d, h_site h = d ++ [47] /\ same_case d uri.
(** a relative path in components; it leaves the directory only by [..] *)
Inductive Path : bytes -> list bytes -> Prop :=
| Path_last w : free [47] w -> Path w [w]
| Path_cons w t ws : free [47] w -> Path t ws -> Path (w ++ 47 :: t) (w :: ws).

(** ** Ends of headers *)
(** [t] ends with a blank line *)
Definition Ends (t : bytes) : Prop := exists p, t = p ++ [13; 10; 13; 10] \/ t = p ++ [10; 10].
(** [t] is a header: it ends with the first blank line *)
Definition Header (t : bytes) : Prop := Ends t /\ forall a b, t = a ++ b -> b <> [] -> ~ Ends a.

(** ** Commands in a telnet URI *)
Definition Cmd (w c p : bytes) : Prop := free [32] w /\ c = w /\ p = [] \/ w = c ++ 32 :: p /\ free [32] c.
(** ** Access: the handler is open for the client and its credentials *)
Definition credential (h : handler) (fs : list (bytes * bytes)) : Prop :=
  exists text_ word ws pw, In (zs "Authorization", text_) fs /\ same_case word (zs "Basic") /\ Words text_ (word :: ws) /\ Words pw ws /\ In pw (h_auth h).
