(** KMS clients and their suppliers: aws-encryption-sdk-cpp/source/kms_keyring.cpp 320-395 and
    include/aws/cryptosdk/cpp/kms_keyring.h 181-240, with the places in kms_keyring.cpp and kms_mrk_keyring.cpp that use them.

    Operations are programs; the steps of several threads interleave, a step being one access to a shared object: a lookup in
    the cache of a supplier or an insertion into it (each under its mutex), the creation of a client or of a supplier, a
    request to KMS, a call of an application's own supplier.  What KMS and application's suppliers answer is arbitrary.
    A shared pointer to a client is a [client]; a client remembers the region it was configured for, the empty one meaning the
    default of the AWS SDK.
    Not modelled: user agent and timeouts of a client, failure of MakeShared (an exception), the lifetime of suppliers (shared
    pointers keep them; the callable of line 359 refers to its supplier by a plain pointer, but is called and dropped while the
    keyring holds the supplier). *)
From Verif Require Import Base AlgModel EncCtxModel HdrModel FrameModel CryptoModel SessionModel KeyringModel KmsModel.
Import List.
Open Scope list_scope.
Open Scope N_scope.

(** ** Clients and suppliers *)
Record client := mk_client { cl_id : nat; cl_region : list N }.

(** SingleClientSupplier (its pointer may be null), CachingClientSupplier number [n], a class of the application. *)
Inductive supplier := SSingle (c : option client) | SCaching (n : nat) | SCustom (n : nat).

(** std::function<void()>: empty; doing nothing (340, 355); the insertion of lines 359-362; one of the application. *)
Inductive callable := CUnset | CNoop | CStore (n : nat) (region : list N) (c : client) | COwn.

(** [Throw]: the call of an empty std::function, which throws std::bad_function_call through C code. *)
Inductive prog (A : Type) : Type :=
| Ret (a : A)
| Throw
| Look (n : nat) (region : list N) (k : option client -> prog A)
| New (region : list N) (k : client -> prog A)
| Ask (n : nat) (region : list N) (k : option client -> callable -> prog A)
| Send (c : client) (rq : kms_request) (k : option kms_result -> prog A)
| Put (n : nat) (region : list N) (c : client) (k : prog A)
| MkCache (k : nat -> prog A).
Arguments Ret {A}. Arguments Throw {A}. Arguments Look {A}. Arguments New {A}. Arguments Ask {A}.
Arguments Send {A}. Arguments Put {A}. Arguments MkCache {A}.

(** GetClient, kms_keyring.cpp 339-343 and 349-364; CreateDefaultKmsClient, 320-332, is [New]. *)
Definition get_client {A} (s : supplier) (region : list N) (k : option client -> callable -> prog A) : prog A :=
  match s with
  | SSingle c => k c CNoop
  | SCaching n => Look n region (fun o =>
      match o with
      | Some c => k (Some c) CNoop
      | None => New region (fun c => k (Some c) (CStore n region c))
      end)
  | SCustom n => Ask n region k
  end.

(** report_success() *)
Definition report {A} (f : callable) (k : prog A) : prog A :=
  match f with
  | CUnset => Throw
  | CNoop | COwn => k
  | CStore n region c => Put n region c k
  end.

(** The pattern of kms_keyring.cpp 110-132, 200-220, 250-273 and kms_mrk_keyring.cpp 214-282, 425-476, 526-567: no client, KMS
    refuses, KMS answers. *)
Definition attempt {A} (s : supplier) (region : list N) (rq : kms_request) (none refused : prog A) (ok : kms_result -> prog A) : prog A :=
  get_client s region (fun c f =>
    match c with
    | None => none
    | Some c => Send c rq (fun o => match o with None => refused | Some x => report f (ok x) end)
    end).

(** ** KMS keyring; as in KmsModel.v, with [log] the calls so far.  Of [ev] only the failure points are used. *)
Fixpoint kms_dec_p {A} (k : kms) (s : supplier) (ctx : enc_ctx) (log : list kms_call) (edks : list edk)
    (fin : list kms_call -> dec_end -> prog A) : prog A :=
  match edks with
  | [] => fin log DcNone
  | e :: edks' =>
    match kms_select k e with
    | None => kms_dec_p k s ctx log edks' fin
    | Some region =>
      let key := edk_provider_info e in
      let rq := mk_kms_request region key (OpDecrypt (edk_ciphertext e)) ctx (kk_grants k) in
      attempt s region rq (kms_dec_p k s ctx log edks' fin) (kms_dec_p k s ctx (log ++ [(rq, None)]) edks' fin)
        (fun x => fin (log ++ [(rq, Some x)]) (if bytes_eqb (kx_key x) key then DcFound key (kx_plain x) else DcWrong))
    end
  end.

(** OnDecrypt, kms_keyring.cpp 49-159 *)
Definition kms_on_decrypt_p {A} (k : kms) (s : supplier) (ev : kms_env) (edks : list edk) (ctx : enc_ctx) (alg : N) (a : dargs)
    (fin : list kms_call -> dargs * krc -> prog A) : prog A :=
  kms_dec_p k s ctx [] edks (fun log r => fin log
    match r with
    | DcNone => (a, KrOk)
    | DcWrong => (a, KrErr E_INVALID_STATE)
    | DcFound key plain =>
      match kv_fail ev 0 with
      | Some e => (mk_dargs None (da_trace a), KrErr e)
      | None => (mk_dargs (dup_key (kv_meta ev) plain)
                   (add_record (kv_record ev 0) (da_trace a) KEY_PROVIDER_STR (c_string key)
                      (N.lor FLAG_DECRYPTED FLAG_VERIFIED_CTX)), KrOk)
      end
    end).

(** The loop of kms_keyring.cpp 239-287 *)
Fixpoint kms_enc_p {A} (k : kms) (s : supplier) (ev : kms_env) (ctx : enc_ctx) (plain : list N) (i : nat) (log : list kms_call)
    (ids : list (list N)) (edks : list edk) (trace : list trace_rec) (fin : list kms_call -> list edk -> list trace_rec -> krc -> prog A) : prog A :=
  match ids with
  | [] => fin log edks trace KrOk
  | id :: ids' =>
    let region := parse_region id in
    let rq := mk_kms_request region id (OpEncrypt plain) ctx (kk_grants k) in
    attempt s region rq (fin log edks trace (KrErr E_BAD_STATE)) (fin (log ++ [(rq, None)]) edks trace (KrErr E_KMS_FAILURE))
      (fun x =>
         let (edks', r) := append_edk (kv_fail ev (4 + i)%nat) edks x in
         match r with
         | Some e => fin (log ++ [(rq, Some x)]) edks' trace (KrErr e)
         | None => kms_enc_p k s ev ctx plain (S i) (log ++ [(rq, Some x)]) ids' edks'
                     (add_record (kv_record ev i) trace KEY_PROVIDER_STR (c_string id) (N.lor FLAG_ENCRYPTED FLAG_SIGNED_CTX)) fin
         end)
  end.

(** OnEncrypt, kms_keyring.cpp 161-301 *)
Definition kms_on_encrypt_p {A} (k : kms) (s : supplier) (ev : kms_env) (ctx : enc_ctx) (alg : N) (a : kargs)
    (fin : list kms_call -> kargs * krc -> prog A) : prog A :=
  match kk_ids k with
  | [] => fin [] (a, KrOk)
  | gen :: others =>
    match kv_fail ev 0 with Some e => fin [] (a, KrErr e) | None =>
    match kv_fail ev 1 with Some e => fin [] (a, KrErr e) | None =>
    match ka_key a with
    | Some b =>
      kms_enc_p k s ev ctx (kb_bytes b) 0 [] (gen :: others) [] [] (fun log edks trace rc =>
        fin log (kms_finish ev a (Some b) (Some b) edks trace rc))
    | None =>
      match alg_lookup alg with
      | None => fin [] (a, KrErr E_CRYPTO_UNKNOWN)
      | Some p =>
        let region := parse_region gen in
        let rq := mk_kms_request region gen (OpGenerate (ap_data_key_len p)) ctx (kk_grants k) in
        attempt s region rq (fin [] (a, KrErr E_BAD_STATE)) (fin [(rq, None)] (a, KrErr E_KMS_FAILURE)) (fun x =>
          let (edks, r) := append_edk (kv_fail ev 2) [] x in
          match r with
          | Some e => fin [(rq, Some x)] (a, KrErr e)
          | None =>
            match kv_fail ev 3 with
            | Some e => fin [(rq, Some x)] (a, KrErr e)
            | None =>
              let key := dup_key (kv_meta ev) (kx_plain x) in
              let trace := add_record (kv_record ev 0) [] KEY_PROVIDER_STR (c_string gen)
                             (N.lor FLAG_GENERATED (N.lor FLAG_ENCRYPTED FLAG_SIGNED_CTX)) in
              kms_enc_p k s ev ctx (key_bytes key) 1 [(rq, Some x)] others edks trace (fun log edks trace rc =>
                fin log (kms_finish ev a key None edks trace rc))
            end
          end)
      end
    end end end
  end.

(** ** MRK-aware keyring *)

(** The loop of kms_mrk_keyring.cpp 136-352 *)
Fixpoint mrk_dec_p {A} (k : mrk) (s : supplier) (ctx : enc_ctx) (len : option N) (failed : bool) (log : list kms_call) (edks : list edk)
    (fin : list kms_call -> mrk_end -> prog A) : prog A :=
  match edks with
  | [] => fin log (MkNone failed)
  | e :: edks' =>
    match mrk_select k e with
    | None => mrk_dec_p k s ctx len failed log edks' fin
    | Some (region, key) =>
      let rq := mk_kms_request region key (OpDecrypt (edk_ciphertext e)) ctx (mk_grants k) in
      attempt s region rq (mrk_dec_p k s ctx len failed log edks' fin)
        (mrk_dec_p k s ctx len (if is_empty (mk_id k) then failed else true) (log ++ [(rq, None)]) edks' fin)
        (fun x =>
           match len with
           | None => fin (log ++ [(rq, Some x)]) MkUB
           | Some n =>
             if negb (Nlen (kx_plain x) =? n) || negb (bytes_eqb (kx_key x) key) then
               mrk_dec_p k s ctx len true (log ++ [(rq, Some x)]) edks' fin
             else fin (log ++ [(rq, Some x)]) (MkFound (edk_provider_info e) (kx_plain x))
           end)
    end
  end.

(** OnDecrypt, kms_mrk_keyring.cpp 83-372 *)
Definition mrk_on_decrypt_p {A} (k : mrk) (s : supplier) (ev : kms_env) (edks : list edk) (ctx : enc_ctx) (alg : N) (a : dargs)
    (fin : list kms_call -> dargs * krc -> prog A) : prog A :=
  if negb (is_empty (key_bytes (da_key a))) then fin [] (a, KrOk)
  else
    let len := match alg_lookup alg with Some p => Some (ap_content_key_len p) | None => None end in
    mrk_dec_p k s ctx len false [] edks (fun log r => fin log
      match r with
      | MkNone failed => (a, if failed then KrErr E_KMS_FAILURE else KrOk)
      | MkUB => (a, KrUB)
      | MkFound info plain =>
        match kv_fail ev 0 with
        | Some e => (mk_dargs None (da_trace a), KrErr e)
        | None => (mk_dargs (dup_key (kv_meta ev) plain)
                     (add_record (kv_record ev 0) (da_trace a) KEY_PROVIDER_STR (c_string info)
                        (N.lor FLAG_DECRYPTED FLAG_VERIFIED_CTX)), KrOk)
        end
      end).

(** OnEncrypt, kms_mrk_keyring.cpp 377-608 *)
Definition mrk_on_encrypt_p {A} (k : mrk) (s : supplier) (ev : kms_env) (ctx : enc_ctx) (alg : N) (a : kargs)
    (fin : list kms_call -> kargs * krc -> prog A) : prog A :=
  if is_empty (mk_id k) then fin [] (a, KrErr E_BAD_STATE)
  else
    match kv_fail ev 0 with Some e => fin [] (a, KrErr e) | None =>
    match kv_fail ev 1 with Some e => fin [] (a, KrErr e) | None =>
    let region := parse_region (mk_id k) in
    match ka_key a with
    | None =>
      match alg_lookup alg with
      | None => fin [] (a, KrErr E_CRYPTO_UNKNOWN)
      | Some p =>
        let rq := mk_kms_request region (mk_id k) (OpGenerate (ap_data_key_len p)) ctx (mk_grants k) in
        attempt s region rq (fin [] (a, KrErr E_BAD_STATE)) (fin [(rq, None)] (a, KrErr E_KMS_FAILURE)) (fun x =>
          fin [(rq, Some x)]
            (if negb (Nlen (kx_plain x) =? ap_content_key_len p) then (a, KrErr E_KMS_FAILURE)
             else if negb (is_valid_kms_key_arn (kx_key x)) then (a, KrErr E_KMS_FAILURE)
             else
               let (edks, r) := append_edk (kv_fail ev 2) [] x in
               match r with
               | Some e => (a, KrErr e)
               | None =>
                 match kv_fail ev 3 with
                 | Some e => (a, KrErr e)
                 | None =>
                   kms_finish ev a (dup_key (kv_meta ev) (kx_plain x)) None edks
                     (add_record (kv_record ev 0) [] KEY_PROVIDER_STR (c_string (mk_id k))
                        (N.lor FLAG_GENERATED (N.lor FLAG_ENCRYPTED FLAG_SIGNED_CTX))) KrOk
                 end
               end))
      end
    | Some b =>
      let rq := mk_kms_request region (mk_id k) (OpEncrypt (kb_bytes b)) ctx (mk_grants k) in
      attempt s region rq (fin [] (a, KrErr E_BAD_STATE)) (fin [(rq, None)] (a, KrErr E_KMS_FAILURE)) (fun x =>
        fin [(rq, Some x)]
          (if negb (is_valid_kms_key_arn (kx_key x)) then (a, KrErr E_KMS_FAILURE)
           else
             let (edks, r) := append_edk (kv_fail ev 4) [] x in
             match r with
             | Some e => (a, KrErr e)
             | None =>
               kms_finish ev a (Some b) (Some b) edks
                 (add_record (kv_record ev 0) [] KEY_PROVIDER_STR (c_string (mk_id k)) (N.lor FLAG_ENCRYPTED FLAG_SIGNED_CTX)) KrOk
             end))
    end end end.

(** ** Builders *)

(** BuildClientSupplier, kms_keyring.cpp 366-395 *)
Definition build_supplier {A} (ids : list (list N)) (c : option client) (sup : option supplier) (fin : supplier -> prog A) : prog A :=
  match c with
  | Some c => fin (SSingle (Some c))
  | None =>
    match ids with
    | [id] =>
      let region := parse_region id in
      match sup with
      | Some s => get_client s region (fun c f => report f (fin (SSingle c)))
      | None => New region (fun c => fin (SSingle (Some c)))
      end
    | _ => match sup with Some s => fin s | None => MkCache (fun n => fin (SCaching n)) end
    end
  end.

(** A keyring with its supplier *)
Inductive kms_kr := KKms (k : kms) (s : supplier) | KMrk (k : mrk) (s : supplier).

(** KmsKeyring::Builder: kms_client and client_supplier set with WithKmsClient and WithClientSupplier, 455-464; likewise the
    Builder of kms_mrk_keyring.cpp, 705-722.  [BMulti] and [BMultiDiscovery]: MultiKeyringBuilder, 724-889 and 896-975.
    [BMrkRegion]: BuildDiscovery of kms_mrk_keyring.cpp without a filter, 660-676. *)
Inductive builder :=
| BKms (c : option client) (sup : option supplier) (grants : list (list N)) (generator : list N) (additional : list (list N))
| BDiscovery (c : option client) (sup : option supplier) (grants : list (list N)) (f : option dfilter)
| BMrk (c : option client) (sup : option supplier) (grants : list (list N)) (id : list N)
| BMrkDiscovery (c : option client) (sup : option supplier) (grants : list (list N)) (region : list N) (f : option dfilter)
| BMulti (sup : option supplier) (grants : list (list N)) (generator : option (list N)) (additional : list (list N))
| BMultiDiscovery (sup : option supplier) (grants : list (list N)) (regions : list (list N)) (f : option dfilter)
| BMrkRegion (c : option client) (sup : option supplier) (grants : list (list N)) (region : list N).

(** Lines 795 and 919 *)
Definition or_default {A} (sup : option supplier) (fin : supplier -> prog A) : prog A :=
  match sup with Some s => fin s | None => MkCache (fun n => fin (SCaching n)) end.

(** The children of lines 844-870; a client is asked for, but its use is never reported. *)
Fixpoint children_p {A} (s : supplier) (grants : list (list N)) (ids : list (list N)) (done : list kms_kr) (fin : option (list kms_kr) -> prog A) : prog A :=
  match ids with
  | [] => fin (Some done)
  | id :: ids' =>
    let region := parse_region id in
    if is_empty region then fin None
    else get_client s region (fun c _ =>
      match c, mrk_build grants id with
      | Some c, Some k => children_p s grants ids' (done ++ [KMrk k (SSingle (Some c))]) fin
      | _, _ => fin None
      end)
  end.

(** The children of lines 941-961 *)
Fixpoint regions_p {A} (s : supplier) (grants : list (list N)) (f : option dfilter) (regions : list (list N)) (done : list kms_kr) (fin : option (list kms_kr) -> prog A) : prog A :=
  match regions with
  | [] => fin (Some done)
  | region :: regions' =>
    get_client s region (fun c _ =>
      match c, mrk_build_discovery grants region f with
      | Some c, Some k => regions_p s grants f regions' (done ++ [KMrk k (SSingle (Some c))]) fin
      | _, _ => fin None
      end)
  end.

(** The keyring made, with its members for a multi-keyring (generator first); [None] is NULL. *)
Definition build_p {A} (b : builder) (fin : option (list kms_kr) -> prog A) : prog A :=
  match b with
  | BKms c sup grants gen others =>
    match kms_build grants gen others with
    | None => fin None
    | Some k => build_supplier (gen :: others) c sup (fun s => fin (Some [KKms k s]))
    end
  | BDiscovery c sup grants f => build_supplier [] c sup (fun s => fin (Some [KKms (mk_kms [] f grants) s]))
  | BMrk c sup grants id =>
    match mrk_build grants id with
    | None => fin None
    | Some k => build_supplier [id] c sup (fun s => fin (Some [KMrk k s]))
    end
  | BMrkDiscovery c sup grants region f =>
    match c, sup, mrk_build_discovery grants region f with
    | Some c, None, Some k => fin (Some [KMrk k (SSingle (Some c))])
    | _, _, _ => fin None
    end
  | BMulti sup grants gen ids =>
    if match gen with Some g => is_empty g | None => false end then fin None
    else
      let all := match gen with Some g => g :: ids | None => ids end in
      if existsb is_empty ids then fin None
      else if match all with [] => true | _ => false end then fin None
      else if Nat.ltb 0 (length (find_duplicate_kms_mrk_ids all)) then fin None
      else or_default sup (fun s =>
        match gen with
        | None => children_p s grants ids [] fin
        | Some g =>
          get_client s (parse_region g) (fun c _ =>
            match c, mrk_build grants g with
            | Some c, Some k => children_p s grants ids [KMrk k (SSingle (Some c))] fin
            | _, _ => fin None
            end)
        end)
  | BMultiDiscovery sup grants regions f =>
    if match regions with [] => true | _ => false end then fin None
    else if existsb is_empty regions then fin None
    else or_default sup (fun s => regions_p s grants f regions [] fin)
  | BMrkRegion c sup grants region =>
    match c, sup with
    | Some c, None => fin (Some [KMrk (mrk_build_region grants region) (SSingle (Some c))])
    | _, _ => fin None
    end
  end.

(** ** Threads *)

(** The use of a keyring: encryption, given what the caller's buffers hold, or decryption. *)
Inductive use := UEncrypt (ev : kms_env) (ctx : enc_ctx) (alg : N) (a : kargs) | UDecrypt (ev : kms_env) (edks : list edk) (ctx : enc_ctx) (alg : N) (a : dargs).
Definition use_p {A} (kr : kms_kr) (u : use) (fin : prog A) : prog A :=
  match kr, u with
  | KKms k s, UEncrypt ev ctx alg a => kms_on_encrypt_p k s ev ctx alg a (fun _ _ => fin)
  | KKms k s, UDecrypt ev edks ctx alg a => kms_on_decrypt_p k s ev edks ctx alg a (fun _ _ => fin)
  | KMrk k s, UEncrypt ev ctx alg a => mrk_on_encrypt_p k s ev ctx alg a (fun _ _ => fin)
  | KMrk k s, UDecrypt ev edks ctx alg a => mrk_on_decrypt_p k s ev edks ctx alg a (fun _ _ => fin)
  end.

(** What a thread does in turn: use a keyring; build one and use it, or its members (by number), some times. *)
Inductive task := TUse (kr : kms_kr) (u : use) | TBuild (b : builder) (us : list (nat * use)).
Fixpoint uses_p {A} (krs : list kms_kr) (us : list (nat * use)) (fin : prog A) : prog A :=
  match us with
  | [] => fin
  | (i, u) :: us' => match nth_error krs i with Some kr => use_p kr u (uses_p krs us' fin) | None => uses_p krs us' fin end
  end.
Fixpoint thread (ts : list task) : prog unit :=
  match ts with
  | [] => Ret tt
  | TUse kr u :: ts' => use_p kr u (thread ts')
  | TBuild b us :: ts' => build_p b (fun o => match o with Some krs => uses_p krs us (thread ts') | None => thread ts' end)
  end.

(** ** Execution *)
Inductive cevent := ENew (c : client) | ESend (c : client) (rq : kms_request) (o : option kms_result) | EPut (n : nat) (c : client).

(** The caches of the suppliers, the number of suppliers and of clients made, and what has happened, oldest first. *)
Record cstate := mk_cstate { cs_cache : nat -> list N -> option client; cs_made : nat; cs_next : nat; cs_log : list cevent }.
(** At first there may be suppliers (numbers below [k]) and clients (below [j]) made by the application. *)
Definition cs_init (k j : nat) : cstate := mk_cstate (fun _ _ => None) k j [].
Definition bind_cache (m : nat -> list N -> option client) (n : nat) (r : list N) (c : client) : nat -> list N -> option client :=
  fun n' r' => if Nat.eqb n' n && bytes_eqb r' r then Some c else m n' r'.

(** What the surroundings may answer in a step *)
Record reply := mk_reply { rp_call : option kms_result; rp_client : option client; rp_callable : callable }.

Definition step {A} (a : reply) (p : prog A) (st : cstate) : prog A * cstate :=
  let '(mk_cstate m made next log) := st in
  match p with
  | Ret _ | Throw => (p, st)
  | Look n r k => (k (m n r), st)
  | New r k => let c := mk_client next r in (k c, mk_cstate m made (S next) (log ++ [ENew c]))
  | Ask n r k => (k (rp_client a) (rp_callable a), st)
  | Send c rq k => (k (rp_call a), mk_cstate m made next (log ++ [ESend c rq (rp_call a)]))
  | Put n r c k => (k, mk_cstate (bind_cache m n r c) made next (log ++ [EPut n c]))
  | MkCache k => (k made, mk_cstate m (S made) next log)
  end.

Fixpoint upd_thread {A} (i : nat) (p : A) (l : list A) : list A :=
  match l, i with
  | [], _ => []
  | _ :: l', O => p :: l'
  | x :: l', S j => x :: upd_thread j p l'
  end.

(** A run: which thread makes the next step, and the answer it gets. *)
Fixpoint crun {A} (sched : list (nat * reply)) (ts : list (prog A)) (st : cstate) : list (prog A) * cstate :=
  match sched with
  | [] => (ts, st)
  | (i, a) :: sched' =>
    match nth_error ts i with
    | None => crun sched' ts st
    | Some p => let (p', st') := step a p st in crun sched' (upd_thread i p' ts) st'
    end
  end.
