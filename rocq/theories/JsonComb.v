(** serde derive, generically: structs with required and optional fields,
    externally tagged enums, tuples, and the untagged manifest envelope.
    Used for the messages of msg.rs; the manifest types themselves are in
    TypesJson.v. *)
From Verif Require Import Base Utf8 Hex Json Types TypesJson.
Local Open Scope N_scope.

(** ** Fields of a struct *)
Record jfields (A : Type) := JFields {
  fn : list bytes;
  fs : A -> list (option json);
  fd : nat -> list (option json) -> option A;
  fw : A -> bool;
  fneed : nat
}.
Arguments JFields {A}. Arguments fn {A}. Arguments fs {A}. Arguments fd {A}. Arguments fw {A}. Arguments fneed {A}.

(** #[serde(default, skip_serializing_if = "Option::is_none")] on Option<T>:
    a missing field and null both mean None. *)
Definition opt_dec {A} (c : jcodec A) (d : nat) (o : option json) : option (option A) :=
  match o with
  | None | Some JNull => Some None
  | Some x => let? y := jdec c (pred d) x in Some (Some y)
  end.
Definition opt_ser {A} (c : jcodec A) (o : option A) : option json :=
  match o with Some a => Some (jser c a) | None => None end.
Definition opt_wf {A} (c : jcodec A) (o : option A) : bool := match o with Some a => jwf c a | None => true end.

Definition f_one {A} (n : bytes) (c : jcodec A) : jfields A :=
  JFields [n] (fun a => [Some (jser c a)]) (fun d l => match l with [o] => req c d o | _ => None end) (jwf c) (jneed c).
Definition f_opt1 {A} (n : bytes) (c : jcodec A) : jfields (option A) :=
  JFields [n] (fun a => [opt_ser c a]) (fun d l => match l with [o] => opt_dec c d o | _ => None end) (opt_wf c) (jneed c).
Definition f_cons {A B} (n : bytes) (c : jcodec A) (f : jfields B) : jfields (A * B) :=
  JFields (n :: fn f) (fun p => Some (jser c (fst p)) :: fs f (snd p))
    (fun d l => match l with o :: r => let? a := req c d o in let? b := fd f d r in Some (a, b) | [] => None end)
    (fun p => jwf c (fst p) && fw f (snd p)) (Nat.max (jneed c) (fneed f)).
Definition f_opt {A B} (n : bytes) (c : jcodec A) (f : jfields B) : jfields (option A * B) :=
  JFields (n :: fn f) (fun p => opt_ser c (fst p) :: fs f (snd p))
    (fun d l => match l with o :: r => let? a := opt_dec c d o in let? b := fd f d r in Some (a, b) | [] => None end)
    (fun p => opt_wf c (fst p) && fw f (snd p)) (Nat.max (jneed c) (fneed f)).
Definition js_struct {A} (deny : bool) (f : jfields A) : jcodec A :=
  JCodec (fun a => ser_struct (combine (fn f) (fs f a)))
         (fun d j => match dec_struct (fn f) deny d j with Some l => fd f d l | None => None end)
         (fw f) (Nat.max 2 (S (fneed f))).
Definition js_iso {A B} (f : A -> B) (g : B -> A) (c : jcodec A) : jcodec B :=
  JCodec (fun b => jser c (g b)) (fun d j => match jdec c d j with Some a => Some (f a) | None => None end)
         (fun b => jwf c (g b)) (jneed c).

(** A tuple variant's payload: an array of exactly two elements. *)
Definition js_tuple2 {A B} (a : jcodec A) (b : jcodec B) : jcodec (A * B) :=
  JCodec (fun p => JArr [jser a (fst p); jser b (snd p)])
         (fun d j => match d with
                     | S (S _ as d1) =>
                       match j with
                       | JArr [x; y] => let? x := jdec a d1 x in let? y := jdec b d1 y in Some (x, y)
                       | _ => None end
                     | _ => None end)
         (fun p => jwf a (fst p) && jwf b (snd p)) (Nat.max 2 (S (Nat.max (jneed a) (jneed b)))).

(** ** Externally tagged enums *)
Record jvariants (A : Type) := JVariants {
  vn : list bytes;
  vser : A -> json;
  vdec : bytes -> nat -> option json -> option A;
  vwf : A -> bool;
  vneed : nat
}.
Arguments JVariants {A}. Arguments vn {A}. Arguments vser {A}. Arguments vdec {A}. Arguments vwf {A}. Arguments vneed {A}.

Definition v_nil : jvariants Empty_set :=
  JVariants [] (fun e : Empty_set => match e return json with end) (fun _ _ _ => None)
            (fun e : Empty_set => match e return bool with end) 0.
Definition to_right {A B} (o : option B) : option (A + B) := match o with Some b => Some (inr b) | None => None end.
(** A unit variant: its name, or a one-member object holding null. *)
Definition v_unit {B} (n : bytes) (v : jvariants B) : jvariants (unit + B) :=
  JVariants (n :: vn v) (fun s => match s with inl _ => str n | inr b => vser v b end)
    (fun k d p => if bytes_eqb k n then match p with None | Some JNull => Some (inl tt) | _ => None end
                  else to_right (vdec v k d p))
    (fun s => match s with inl _ => true | inr b => vwf v b end) (vneed v).
(** A newtype variant; a struct variant is one whose payload is a struct. *)
Definition v_new {A B} (n : bytes) (c : jcodec A) (v : jvariants B) : jvariants (A + B) :=
  JVariants (n :: vn v) (fun s => match s with inl a => JObj [(Some n, jser c a)] | inr b => vser v b end)
    (fun k d p => if bytes_eqb k n then match p with Some x => let? a := jdec c d x in Some (inl a) | None => None end
                  else to_right (vdec v k d p))
    (fun s => match s with inl a => jwf c a | inr b => vwf v b end) (Nat.max (jneed c) (vneed v)).
(** #[serde(skip)]: never decoded; serialising it is an error, which callers
    treat separately, so the value given here is never used. *)
Definition v_skip {A B} (v : jvariants B) : jvariants (A + B) :=
  JVariants (vn v) (fun s => match s with inl _ => JNull | inr b => vser v b end)
    (fun k d p => to_right (vdec v k d p))
    (fun s => match s with inl _ => false | inr b => vwf v b end) (vneed v).
Definition js_enum {A} (v : jvariants A) : jcodec A :=
  JCodec (vser v)
    (fun d j => match j with
                | JStr (Some s) => vdec v s d None
                | JObj [(Some k, x)] => match d with S (S _ as d1) => vdec v k d1 (Some x) | _ => None end
                | _ => None end)
    (vwf v) (Nat.max 2 (S (vneed v))).

(** ** #[serde(untagged)] VersionedManifestEnvelope: manifest.rs:291-301.
    The value is buffered (hence strict); V2, V1, V0 are tried in turn. *)
Definition js_versioned_envelope : jcodec versioned_envelope :=
  JCodec (fun e => match e with VE2 x => jser js_envelope_v2 x | VE1 x => jser js_envelope x | VE0 x => jser js_envelope_v0 x end)
    (fun d j =>
       if strict d j then
         match jdec js_envelope_v2 d j with
         | Some e => Some (VE2 e)
         | None => match jdec js_envelope d j with
                   | Some e => Some (VE1 e)
                   | None => match jdec js_envelope_v0 d j with Some e => Some (VE0 e) | None => None end end end
       else None)
    wf_envelope 7.
(** The serde derive of VersionedManifest: manifest.rs:69-80 *)
Definition js_versioned_manifest : jcodec versioned_manifest :=
  JCodec (fun e => match e with VM2 x => jser js_manifest_v2 x | VM1 x => jser js_manifest x | VM0 x => jser js_manifest_v0 x end)
    (fun d j =>
       if strict d j then
         match jdec js_manifest_v2 d j with
         | Some e => Some (VM2 e)
         | None => match jdec js_manifest d j with
                   | Some e => Some (VM1 e)
                   | None => match jdec js_manifest_v0 d j with Some e => Some (VM0 e) | None => None end end end
       else None)
    wf_manifest 6.

(** ** BTreeSet<u16> with qos_json::string_or_numeric: qos_json/src/lib.rs:247-283 *)
Fixpoint set_insert (x : N) (s : list N) : list N :=
  match s with
  | [] => [x]
  | y :: r => if x =? y then s else if x <? y then x :: s else y :: set_insert x r
  end.
Definition set_collect (l : list N) : list N := fold_left (fun s x => set_insert x s) l [].
Fixpoint ascending (l : list N) : bool :=
  match l with
  | x :: r => match r with y :: _ => (x <? y) | [] => true end && ascending r
  | [] => true end.
Definition js_set_u16 : jcodec (list N) :=
  JCodec (jser (js_vec js_u16)) (fun d j => match jdec (js_vec js_u16) d j with Some l => Some (set_collect l) | None => None end)
         (fun l => jwf (js_vec js_u16) l && ascending l) (jneed (js_vec js_u16)).
