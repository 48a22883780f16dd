(** Specification of the use of KMS clients: which region a request goes to, when a client is kept, which client is used. *)
From Verif Require Import Base KeyringModel KmsModel BuildModel ClientModel KmsSpec.
Import List.
Open Scope list_scope.
Open Scope N_scope.

Definition supplier_of (kr : kms_kr) : supplier := match kr with KKms _ s | KMrk _ s => s end.

(** A supplier of the library, whose single client, if it has one, is in a region as described. *)
Definition supplies (ok : list N -> Prop) (s : supplier) : Prop :=
  match s with SSingle (Some c) => ok (cl_region c) | SSingle None | SCaching _ => True | SCustom _ => False end.

(** All keys that the keyring can name to KMS are in region [r]; a discovery keyring of kms_keyring.cpp may meet keys of any region. *)
Definition stays_in (kr : kms_kr) (r : list N) : Prop :=
  match kr with
  | KKms k _ => kk_ids k <> [] /\ forall id, In id (kk_ids k) -> region_or_none id r
  | KMrk k _ => (mk_id k <> [] -> region_or_none (mk_id k) r) /\ (mk_id k = [] -> mk_region k = r)
  end.
Definition plain_region (r : list N) : Prop := r <> [] /\ ~ In 58 r.
Definition proper_region (kr : kms_kr) : Prop := match kr with KKms _ _ => True | KMrk k _ => mk_id k = [] -> plain_region (mk_region k) end.

(** The application mixes up no regions: a client that it provides is in the region of the keys, and a supplier that it provides
    is one of the library. *)
Definition given (ok : list N -> Prop) (c : option client) (sup : option supplier) : Prop :=
  match c, sup with Some c, _ => ok (cl_region c) | None, Some s => supplies ok s | None, None => True end.
Definition consistent_build (b : builder) : Prop :=
  match b with
  | BKms c sup _ gen others => given (fun r => forall id, In id (gen :: others) -> region_or_none id r) c sup
  | BDiscovery c sup _ _ => given (fun _ => False) c sup
  | BMrk c sup _ id => given (region_or_none id) c sup
  | BMrkDiscovery c _ _ region _ | BMrkRegion c _ _ region => plain_region region /\ forall x, c = Some x -> cl_region x = region
  | BMulti sup _ gen ids => given (fun r => forall id, gen = Some id \/ In id ids -> region_or_none id r) None sup
  | BMultiDiscovery sup _ regions _ => (forall r, In r regions -> ~ In 58 r) /\ given (fun r => forall r', In r' regions -> r' = r) None sup
  end.
Definition consistent (t : task) : Prop :=
  match t with TUse kr _ => proper_region kr /\ supplies (stays_in kr) (supplier_of kr) | TBuild b _ => consistent_build b end.

(** A builder that asks a supplier for the client of its only key. *)
Definition asks_early (b : builder) (s : supplier) : Prop :=
  match b with BKms None (Some s') _ _ [] | BMrk None (Some s') _ _ => s' = s | _ => False end.
Definition never_asks_early (P : supplier -> Prop) (t : task) : Prop :=
  match t with TUse _ _ => True | TBuild b _ => forall s, asks_early b s -> ~ P s end.
Definition is_custom (s : supplier) : Prop := match s with SCustom _ => True | _ => False end.
Definition is_caching (s : supplier) : Prop := match s with SCaching _ => True | _ => False end.

(** A builder given the client [c]; a builder given one key and nothing else. *)
Definition given_client (b : builder) (c : client) : Prop :=
  match b with BKms (Some c') _ _ _ _ | BDiscovery (Some c') _ _ _ | BMrk (Some c') _ _ _ | BMrkDiscovery (Some c') _ _ _ _ | BMrkRegion (Some c') _ _ _ => c' = c | _ => False end.
Definition only_key (b : builder) : Prop := match b with BKms None None _ _ [] | BMrk None None _ _ => True | _ => False end.

(** The application's own suppliers: they set the callable when they return a client; they do not fill the library's caches. *)
Definition polite (a : reply) : Prop := rp_client a = None \/ rp_callable a <> CUnset.
Definition separate (a : reply) : Prop := match rp_callable a with CStore _ _ _ => False | _ => True end.

(** [c] was inserted into cache [n], always after a request with [c] that KMS answered. *)
Definition kept_after_success (log : list cevent) (n : nat) (c : client) : Prop :=
  In (EPut n c) log /\ forall l1 l2, log = l1 ++ EPut n c :: l2 -> exists rq x, In (ESend c rq (Some x)) l1.

(** Once a request in a region was answered, every later one in that region uses the same client, and no other is made for it. *)
Definition one_client (log : list cevent) : Prop := forall l1 c rq x l2, log = l1 ++ ESend c rq (Some x) :: l2 ->
  forall e, In e l2 -> match e with
                       | ENew c' => cl_region c' <> cl_region c
                       | ESend c' _ _ => cl_region c' = cl_region c -> c' = c
                       | EPut _ _ => True
                       end.
Definition uses_supplier (s : supplier) (t : task) : Prop := match t with TUse kr _ => supplier_of kr = s | TBuild _ _ => False end.

Definition all_sent_with (c : client) (log : list cevent) : Prop := forall c' rq o, In (ESend c' rq o) log -> c' = c.
Definition made (log : list cevent) : list client := flat_map (fun e => match e with ENew c => [c] | _ => [] end) log.

(** Every result that the program can produce satisfies [Q], whatever the answers. *)
Fixpoint yields {A} (Q : A -> Prop) (p : prog A) : Prop :=
  match p with
  | Ret a => Q a
  | Throw => True
  | Look _ _ k => forall o, yields Q (k o)
  | New _ k => forall c, yields Q (k c)
  | Ask _ _ k => forall c f, yields Q (k c f)
  | Send _ _ k => forall o, yields Q (k o)
  | Put _ _ _ k => yields Q k
  | MkCache k => forall n, yields Q (k n)
  end.
(** The environment of KmsModel.v with the given answers *)
Definition with_answers (ev : kms_env) (clients : nat -> list N -> bool) (calls : nat -> kms_request -> option kms_result) : kms_env :=
  mk_kms_env clients calls (kv_fail ev) (kv_edks ev) (kv_trace ev) (kv_record ev) (kv_meta ev).
Definition as_modelled {B} (ev : kms_env) (f : kms_env -> list kms_call * B) (r : list kms_call * B) : Prop :=
  exists clients calls, f (with_answers ev clients calls) = r.

(** What a builder makes: keyrings with the keys, filters and grant tokens that the builders of KmsModel.v and BuildModel.v make, for the
    clients that the supplier returns.  Suppliers of the library that are not empty return one for every region. *)
Definition key_of (kr : kms_kr) : kms + mrk := match kr with KKms k _ => inl k | KMrk k _ => inr k end.
Definition obliging (sup : option supplier) : Prop := match sup with None | Some (SSingle (Some _)) | Some (SCaching _) => True | _ => False end.
Definition built_as (b : builder) (o : option (list kms_kr)) : Prop :=
  let keys := option_map (map key_of) o in
  match b with
  | BKms _ _ grants gen others => keys = option_map (fun k => [inl k]) (kms_build grants gen others)
  | BDiscovery _ _ grants f => keys = Some [inl (mk_kms [] f grants)]
  | BMrk _ _ grants id => keys = option_map (fun k => [inr k]) (mrk_build grants id)
  | BMrkDiscovery (Some _) None grants region f => keys = option_map (fun k => [inr k]) (mrk_build_discovery grants region f)
  | BMrkRegion (Some _) None grants region => keys = Some [inr (mk_mrk [] region None grants)]
  | BMrkDiscovery _ _ _ _ _ | BMrkRegion _ _ _ _ => keys = None
  | BMulti sup grants gen ids => exists client, (obliging sup -> forall i r, client i r = true) /\
      keys = option_map (fun m => map inr (match fst m with Some g => g :: snd m | None => snd m end)) (mrk_multi_build client grants gen ids)
  | BMultiDiscovery sup grants regions f => exists client, (obliging sup -> forall i r, client i r = true) /\
      keys = option_map (map inr) (mrk_multi_discovery client grants f regions)
  end.
(** The members of a multi-keyring have a client each. *)
Definition own_clients (b : builder) (o : option (list kms_kr)) : Prop :=
  match b, o with
  | (BMulti _ _ _ _ | BMultiDiscovery _ _ _ _), Some l => Forall (fun kr => exists c, supplier_of kr = SSingle (Some c)) l
  | _, _ => True
  end.
