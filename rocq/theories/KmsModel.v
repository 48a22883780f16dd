(** The AWS KMS keyrings: aws-encryption-sdk-cpp/source/cpputils.cpp, kms_keyring.cpp, kms_mrk_keyring.cpp.

    KMS and the client supplier (see ClientModel.v) are oracles: which answer a request gets may depend on everything before it, so answers are
    indexed by the number of the attempt.  Every request is recorded together with its answer.
    The AWS SDK for C++ is not in the repository: [arn_parse] is the constructor of Aws::Utils::ARN, [split_two] is
    Aws::Utils::StringUtils::Split with two target parts (empty entries are skipped; the last part is read by getline up
    to the character static_cast<char>(EOF), i.e. byte 255).
    Not modelled: log messages, the encryption context's conversion to a map (same pairs), the loop counter's
    wrap-around at 2^32 EDKs, exceptions for lack of memory in the C++ library. *)
From Verif Require Import Base AlgModel EncCtxModel HdrModel FrameModel CryptoModel SessionModel KeyringModel.
From Coq Require Import String.
Import List.
Open Scope list_scope.
Open Scope N_scope.

Definition COLON : N := 58.
Definition SLASH : N := 47.
Definition EOF_CHAR : N := 255.

(** ** Strings *)

(** Text before and after the first occurrence of a character (std::string::find). *)
Fixpoint cut (c : N) (s : list N) : option (list N * list N) :=
  match s with
  | [] => None
  | x :: s' => if x =? c then Some ([], s')
               else match cut c s' with Some (a, b) => Some (x :: a, b) | None => None end
  end.

Fixpoint trim (c : N) (s : list N) : list N :=
  match s with
  | [] => []
  | x :: s' => if x =? c then trim c s' else s
  end.

(** Aws::Utils::StringUtils::Split(s, c, INCLUDE_EMPTY_ENTRIES); for the empty string the real function returns no entry,
    which makes no difference here. *)
Fixpoint split_all (c : N) (s : list N) : list (list N) :=
  match s with
  | [] => [[]]
  | x :: s' => if x =? c then [] :: split_all c s'
               else match split_all c s' with h :: t => (x :: h) :: t | [] => [[x]] end
  end.

Fixpoint join (c : N) (l : list (list N)) : list N :=
  match l with
  | [] => []
  | [x] => x
  | x :: l' => x ++ c :: join c l'
  end.

(** starts_with, cpputils.cpp 171-177 *)
Fixpoint starts_with (s p : list N) : bool :=
  match p, s with
  | [], _ => true
  | y :: p', x :: s' => (x =? y) && starts_with s' p'
  | _ :: _, [] => false
  end.

(** parse_region_from_kms_key_arn, cpputils.cpp 123-157; the empty string if there is none. *)
Definition parse_region (s : list N) : list N :=
  match cut COLON s with
  | None => []
  | Some (g1, s1) =>
    if negb (bytes_eqb g1 (c_str "arn")) then [] else
    match cut COLON s1 with
    | None => []
    | Some (_, s2) =>
      match cut COLON s2 with
      | None => []
      | Some (g3, s3) =>
        if negb (bytes_eqb g3 (c_str "kms")) then [] else
        match cut COLON s3 with
        | None => []
        | Some (region, _) => region
        end
      end
    end
  end.

(** split_arn_resource, cpputils.cpp 159-169: the two parts, or none. *)
Definition split_two (s : list N) : option (list N * list N) :=
  match cut SLASH (trim SLASH s) with
  | None => None
  | Some (a, b) =>
    let b' := trim SLASH (match cut EOF_CHAR b with Some (b1, _) => b1 | None => b end) in
    match b' with [] => None | _ => Some (a, b') end
  end.

(** Aws::Utils::ARN.  A string that is not an ARN gives [None]; its getters return empty strings. *)
Record arn := mk_arn { arn_partition : list N; arn_service : list N; arn_region : list N; arn_account : list N; arn_resource : list N }.
Definition arn_parse (s : list N) : option arn :=
  match split_all COLON s with
  | a :: p :: sv :: r :: ac :: res :: more =>
      if bytes_eqb a (c_str "arn") then Some (mk_arn p sv r ac (join COLON (res :: more))) else None
  | _ => None
  end.

Definition is_empty (s : list N) : bool := match s with [] => true | _ => false end.

(** is_valid_kms_key_arn, cpputils.cpp 179-211 *)
Definition is_valid_arn (a : arn) : bool :=
  if negb (negb (is_empty (arn_partition a)) && bytes_eqb (arn_service a) (c_str "kms") && negb (is_empty (arn_region a))
           && negb (is_empty (arn_account a)) && negb (is_empty (arn_resource a))) then false
  else match split_two (arn_resource a) with
       | None => false
       | Some (ty, id) => (bytes_eqb ty (c_str "alias") || bytes_eqb ty (c_str "key")) && negb (is_empty id)
       end.
Definition is_valid_kms_key_arn (s : list N) : bool :=
  match arn_parse s with Some a => is_valid_arn a | None => false end.

Definition contains (c : N) (s : list N) : bool := match cut c s with Some _ => true | None => false end.

(** is_valid_kms_identifier, cpputils.cpp 213-232 *)
Definition is_valid_kms_identifier (s : list N) : bool :=
  if is_valid_kms_key_arn s then true
  else if contains COLON s then false
  else if contains SLASH s then starts_with s (c_str "alias/")
  else true.

(** is_kms_mrk_arn, cpputils.cpp 236-262 *)
Definition is_mrk_arn (a : arn) : bool :=
  if negb (is_valid_arn a) then false
  else match split_two (arn_resource a) with
       | None => false
       | Some (ty, id) =>
         if bytes_eqb ty (c_str "alias") then false
         else if bytes_eqb ty (c_str "key") then starts_with id (c_str "mrk-")
         else false
       end.

(** is_kms_mrk_identifier, cpputils.cpp 264-299 *)
Definition is_kms_mrk_identifier (s : list N) : bool :=
  if starts_with s (c_str "arn:") then match arn_parse s with Some a => is_mrk_arn a | None => false end
  else if starts_with s (c_str "alias/") then false
  else if starts_with s (c_str "mrk-") then true
  else false.

(** kms_mrk_match_for_decrypt, cpputils.cpp 301-325 *)
Definition kms_mrk_match_for_decrypt (s1 s2 : list N) : bool :=
  if bytes_eqb s1 s2 then true
  else if negb (is_kms_mrk_identifier s1) || negb (is_kms_mrk_identifier s2) then false
  else match arn_parse s1, arn_parse s2 with
       | Some a1, Some a2 =>
           bytes_eqb (arn_partition a1) (arn_partition a2) && bytes_eqb (arn_service a1) (arn_service a2)
           && bytes_eqb (arn_account a1) (arn_account a2) && bytes_eqb (arn_resource a1) (arn_resource a2)
       | _, _ => false
       end.

(** std::map from strings to vectors: operator[] and push_back; iteration in key order. *)
Fixpoint bytes_ltb (a b : list N) : bool :=
  match a, b with
  | _, [] => false
  | [], _ => true
  | x :: a', y :: b' => if x <? y then true else if y <? x then false else bytes_ltb a' b'
  end.
Definition mrk_map := list (list N * list (list N)).
Fixpoint map_push (k v : list N) (m : mrk_map) : mrk_map :=
  match m with
  | [] => [(k, [v])]
  | (k', vs) :: m' => if bytes_eqb k k' then (k', vs ++ [v]) :: m'
                      else if bytes_ltb k k' then (k, [v]) :: m else (k', vs) :: map_push k v m'
  end.

(** find_duplicate_kms_mrk_ids, cpputils.cpp 327-369: lines 329-337, then 350-359. *)
Definition collect_mrk (m : mrk_map) (s : list N) : mrk_map :=
  match arn_parse s with
  | Some a =>
    if is_mrk_arn a then match split_two (arn_resource a) with Some (_, id) => map_push id s m | None => m end
    else if is_kms_mrk_identifier s then map_push s s m else m
  | None => if is_kms_mrk_identifier s then map_push s s m else m
  end.
Definition find_duplicate_kms_mrk_ids (ids : list (list N)) : list (list N) :=
  flat_map (fun kv => if Nat.ltb (length (snd kv)) 2 then [] else snd kv) (fold_left collect_mrk ids []).

(** ** Discovery filter *)
Record dfilter := mk_filter { df_partition : list N; df_accounts : list (list N) }.

Definition mem_string (s : list N) (l : list (list N)) : bool := existsb (bytes_eqb s) l.

(** DiscoveryFilter::IsAuthorized, kms_keyring.cpp 468-477 *)
Definition is_authorized (f : dfilter) (s : list N) : bool :=
  match arn_parse s with
  | None => false
  | Some a => bytes_eqb (arn_partition a) (df_partition f) && mem_string (arn_account a) (df_accounts f)
  end.

(** DiscoveryFilterBuilder::Build, kms_keyring.cpp 501-519 *)
Definition filter_build (partition : list N) (accounts : list (list N)) : option dfilter :=
  if match accounts with [] => true | _ => false end then None
  else if is_empty partition then None
  else if mem_string [] accounts then None
  else Some (mk_filter partition accounts).

(** ** KMS *)
Inductive kms_op := OpDecrypt (cipher : list N) | OpGenerate (n : N) | OpEncrypt (plain : list N).
Record kms_request := mk_kms_request {
  kq_region : list N;  (* of the client used *)
  kq_key : list N;
  kq_op : kms_op;
  kq_ctx : enc_ctx;
  kq_grants : list (list N);
}.
Record kms_result := mk_kms_result { kx_key : list N; kx_cipher : list N; kx_plain : list N }.
Definition kms_call : Type := kms_request * option kms_result.

(** [kv_client i region]: whether the client supplier returns a client at attempt number [i]; [kv_call i]: the answer to
    the request of attempt [i]; [kv_fail]: failure points of a function; [kv_edks], [kv_trace]: growth of the caller's lists;
    [kv_record i]: whether adding trace record [i] succeeds; [kv_meta]: pointer of a new data key buffer. *)
Record kms_env := mk_kms_env {
  kv_client : nat -> list N -> bool;
  kv_call : nat -> kms_request -> option kms_result;
  kv_fail : nat -> option err;
  kv_edks : nat -> bool;
  kv_trace : nat -> bool;
  kv_record : nat -> bool;
  kv_meta : N;
}.

Definition KEY_PROVIDER_STR : list N := c_str "aws-kms".

(** c_str() passed to a function that takes a C string: the text up to the first NUL. *)
Definition c_string (s : list N) : list N := match cut 0 s with Some (a, _) => a | None => s end.

(** aws_byte_buf_dup_from_aws_utils, cpputils.cpp 47-51: copying an empty buffer leaves a NULL pointer. *)
Definition dup_key (meta : N) (plain : list N) : option kbuf :=
  match plain with [] => None | _ => Some (mk_kbuf meta plain) end.

(** ** KMS keyring *)
Record kms := mk_kms { kk_ids : list (list N); kk_filter : option dfilter; kk_grants : list (list N) }.

(** KmsKeyring::Builder::Build, kms_keyring.cpp 390-412; BuildDiscovery, 414-437 *)
Definition kms_build (grants : list (list N)) (generator : list N) (additional : list (list N)) : option kms :=
  if existsb (fun s => is_empty (parse_region s)) (generator :: additional) then None
  else Some (mk_kms (generator :: additional) None grants).
Definition kms_build_discovery (grants : list (list N)) : kms := mk_kms [] None grants.
Definition kms_build_filtered (grants : list (list N)) (f : dfilter) : kms := mk_kms [] (Some f) grants.

(** The tests of kms_keyring.cpp 78-108: the region to ask, or [None] to skip the EDK. *)
Definition kms_select (k : kms) (e : edk) : option (list N) :=
  let key := edk_provider_info e in
  if negb (bytes_eqb (edk_provider_id e) KEY_PROVIDER_STR) then None
  else if match kk_ids k with [] => false | _ => negb (mem_string key (kk_ids k)) end then None
  else if match kk_filter k with Some f => negb (is_authorized f key) | None => false end then None
  else match parse_region key with [] => None | r => Some r end.

(** The loop of kms_keyring.cpp 70-152, from EDK number [i].  [DcFound] is line 133, [DcWrong] line 149. *)
Inductive dec_end := DcNone | DcFound (key plain : list N) | DcWrong.
Fixpoint kms_dec_loop (k : kms) (ev : kms_env) (ctx : enc_ctx) (i : nat) (edks : list edk) : list kms_call * dec_end :=
  match edks with
  | [] => ([], DcNone)
  | e :: edks' =>
    match kms_select k e with
    | None => kms_dec_loop k ev ctx (S i) edks'
    | Some region =>
      if negb (kv_client ev i region) then kms_dec_loop k ev ctx (S i) edks'
      else
        let key := edk_provider_info e in
        let rq := mk_kms_request region key (OpDecrypt (edk_ciphertext e)) ctx (kk_grants k) in
        match kv_call ev i rq with
        | None => let (log, r) := kms_dec_loop k ev ctx (S i) edks' in ((rq, None) :: log, r)
        | Some x => ([(rq, Some x)], if bytes_eqb (kx_key x) key then DcFound key (kx_plain x) else DcWrong)
        end
    end
  end.

(** OnDecrypt, kms_keyring.cpp 49-159.  Failure point 0: the copy of line 134; trace record number 0. *)
Definition kms_on_decrypt (k : kms) (ev : kms_env) (edks : list edk) (ctx : enc_ctx) (alg : N) (a : dargs) : list kms_call * (dargs * krc) :=
  let (log, r) := kms_dec_loop k ev ctx 0 edks in
  (log, match r with
        | DcNone => (a, KrOk)
        | DcWrong => (a, KrErr E_INVALID_STATE)
        | DcFound key plain =>
          match kv_fail ev 0 with
          | Some e => (mk_dargs None (da_trace a), KrErr e)
          | None => (mk_dargs (dup_key (kv_meta ev) plain)
                       (add_record (kv_record ev 0) (da_trace a) KEY_PROVIDER_STR (c_string key)
                          (N.lor FLAG_DECRYPTED FLAG_VERIFIED_CTX)), KrOk)
          end
        end).

(** append_key_dup_to_edks, cpputils.cpp 69-107, on a local list *)
Definition append_edk (fail : option err) (edks : list edk) (x : kms_result) : list edk * option err :=
  match fail with
  | Some e => (edks, Some e)
  | None => (edks ++ [mk_edk KEY_PROVIDER_STR (kx_key x) (kx_cipher x)], None)
  end.

(** The loop of kms_keyring.cpp 239-287; [i] numbers the keys. Failure point 4 + i: the EDK of key [i]. *)
Fixpoint kms_enc_loop (k : kms) (ev : kms_env) (ctx : enc_ctx) (plain : list N) (i : nat) (ids : list (list N))
    (edks : list edk) (trace : list trace_rec) : list kms_call * (list edk * list trace_rec * krc) :=
  match ids with
  | [] => ([], (edks, trace, KrOk))
  | id :: ids' =>
    let region := parse_region id in
    if negb (kv_client ev i region) then ([], (edks, trace, KrErr E_BAD_STATE))
    else
      let rq := mk_kms_request region id (OpEncrypt plain) ctx (kk_grants k) in
      match kv_call ev i rq with
      | None => ([(rq, None)], (edks, trace, KrErr E_KMS_FAILURE))
      | Some x =>
        let (edks', r) := append_edk (kv_fail ev (4 + i)%nat) edks x in
        match r with
        | Some e => ([(rq, Some x)], (edks', trace, KrErr e))
        | None =>
          let (log, out) := kms_enc_loop k ev ctx plain (S i) ids' edks'
                              (add_record (kv_record ev i) trace KEY_PROVIDER_STR (c_string id) (N.lor FLAG_ENCRYPTED FLAG_SIGNED_CTX)) in
          ((rq, Some x) :: log, out)
        end
      end
  end.

(** Lines 289-297: the transfer of the local lists to the caller's; [key] is the data key buffer, [key0] what it was
    before, if it is to be restored. *)
Definition kms_finish (ev : kms_env) (a : kargs) (key : option kbuf) (on_error : option kbuf) (edks : list edk) (trace : list trace_rec) (rc : krc) : kargs * krc :=
  match rc with
  | KrOk =>
    let '(dest, _, ok) := transfer_list (kv_edks ev) (ka_edks a) edks in
    if ok then
      let '(tr, _, _) := transfer_list (kv_trace ev) (ka_trace a) trace in
      (mk_kargs key tr dest, KrOk)
    else (mk_kargs on_error (ka_trace a) dest, KrErr E_OOM)
  | _ => (mk_kargs on_error (ka_trace a) (ka_edks a), rc)
  end.

(** Bytes of the data key buffer (line 235): none for a NULL pointer. *)
Definition key_bytes (b : option kbuf) : list N := match b with Some b => kb_bytes b | None => [] end.

(** OnEncrypt, kms_keyring.cpp 161-301.  Failure points: 0 and 1 the local lists, 2 the EDK of the generated data key, 3 its
    copy.  Lines 188-233: generation; failures there return at once. *)
Definition kms_on_encrypt (k : kms) (ev : kms_env) (ctx : enc_ctx) (alg : N) (a : kargs) : list kms_call * (kargs * krc) :=
  match kk_ids k with
  | [] => ([], (a, KrOk))
  | gen :: others =>
    match kv_fail ev 0 with Some e => ([], (a, KrErr e)) | None =>
    match kv_fail ev 1 with Some e => ([], (a, KrErr e)) | None =>
    match ka_key a with
    | Some b =>
      let '(log, (edks, trace, rc)) := kms_enc_loop k ev ctx (kb_bytes b) 0 (gen :: others) [] [] in
      (log, kms_finish ev a (Some b) (Some b) edks trace rc)
    | None =>
      match alg_lookup alg with
      | None => ([], (a, KrErr E_CRYPTO_UNKNOWN))
      | Some p =>
        let region := parse_region gen in
        if negb (kv_client ev 0 region) then ([], (a, KrErr E_BAD_STATE))
        else
          let rq := mk_kms_request region gen (OpGenerate (ap_data_key_len p)) ctx (kk_grants k) in
          match kv_call ev 0 rq with
          | None => ([(rq, None)], (a, KrErr E_KMS_FAILURE))
          | Some x =>
            let (edks, r) := append_edk (kv_fail ev 2) [] x in
            match r with
            | Some e => ([(rq, Some x)], (a, KrErr e))
            | None =>
              match kv_fail ev 3 with
              | Some e => ([(rq, Some x)], (a, KrErr e))
              | None =>
                let key := dup_key (kv_meta ev) (kx_plain x) in
                let trace := add_record (kv_record ev 0) [] KEY_PROVIDER_STR (c_string gen)
                               (N.lor FLAG_GENERATED (N.lor FLAG_ENCRYPTED FLAG_SIGNED_CTX)) in
                let '(log, (edks, trace, rc)) := kms_enc_loop k ev ctx (key_bytes key) 1 others edks trace in
                ((rq, Some x) :: log, kms_finish ev a key None edks trace rc)
              end
            end
          end
      end
    end end end
  end.

Definition kms_keyring (k : kms) (ev : kms_env) : keyring :=
  mk_keyring (Some (fun ctx alg a => snd (kms_on_encrypt k ev ctx alg a))) (Some (fun edks ctx alg a => snd (kms_on_decrypt k ev edks ctx alg a))).

(** ** Multi-Region-key aware keyring *)

(** An empty key id means discovery mode (is_discovery, kms_mrk_keyring.cpp 59-61). *)
Record mrk := mk_mrk { mk_id : list N; mk_region : list N; mk_filt : option dfilter; mk_grants : list (list N) }.

(** replace_arn_region, kms_mrk_keyring.cpp 67-72 *)
Definition replace_arn_region (a : arn) (region : list N) : list N :=
  c_str "arn:" ++ arn_partition a ++ COLON :: arn_service a ++ COLON :: region ++ COLON :: arn_account a ++ COLON :: arn_resource a.

(** The tests of kms_mrk_keyring.cpp 150-242: region of the client and key to ask for, or [None] to skip the EDK.  Line 229
    repeats a test already made. *)
Definition mrk_select (k : mrk) (e : edk) : option (list N * list N) :=
  let info := edk_provider_info e in
  if negb (bytes_eqb (edk_provider_id e) KEY_PROVIDER_STR) then None
  else match arn_parse info with
  | None => None
  | Some a =>
    if negb (is_valid_arn a) || negb (starts_with (arn_resource a) (c_str "key")) then None
    else
      let is_mrk := is_kms_mrk_identifier info in
      if is_empty (mk_id k) then
        if negb is_mrk && negb (bytes_eqb (mk_region k) (arn_region a)) then None
        else if match mk_filt k with Some f => negb (is_authorized f info) | None => false end then None
        else Some (mk_region k,
                   if is_mrk then
                     if starts_with (arn_resource a) (c_str "key") then replace_arn_region a (mk_region k) else info
                   else info)
      else
        let region := match arn_parse (mk_id k) with Some ka => arn_region ka | None => [] end in
        if negb is_mrk then if negb (bytes_eqb (mk_id k) info) then None else Some (region, info)
        else if negb (kms_mrk_match_for_decrypt (mk_id k) info) then None else Some (region, mk_id k)
  end.

(** The loop of kms_mrk_keyring.cpp 136-352.  [failed] is failed_decrypt_attempt; [len] is content_key_len, [None] if the suite is
    unknown, in which case line 319 dereferences NULL. *)
Inductive mrk_end := MkNone (failed : bool) | MkFound (info plain : list N) | MkUB.
Fixpoint mrk_dec_loop (k : mrk) (ev : kms_env) (ctx : enc_ctx) (len : option N) (failed : bool) (i : nat) (edks : list edk) : list kms_call * mrk_end :=
  match edks with
  | [] => ([], MkNone failed)
  | e :: edks' =>
    match mrk_select k e with
    | None => mrk_dec_loop k ev ctx len failed (S i) edks'
    | Some (region, key) =>
      if negb (kv_client ev i region) then mrk_dec_loop k ev ctx len failed (S i) edks'
      else
        let rq := mk_kms_request region key (OpDecrypt (edk_ciphertext e)) ctx (mk_grants k) in
        match kv_call ev i rq with
        | None => let (log, r) := mrk_dec_loop k ev ctx len (if is_empty (mk_id k) then failed else true) (S i) edks' in ((rq, None) :: log, r)
        | Some x =>
          match len with
          | None => ([(rq, Some x)], MkUB)
          | Some n =>
            if negb (Nlen (kx_plain x) =? n) || negb (bytes_eqb (kx_key x) key) then
              let (log, r) := mrk_dec_loop k ev ctx len true (S i) edks' in ((rq, Some x) :: log, r)
            else ([(rq, Some x)], MkFound (edk_provider_info e) (kx_plain x))
          end
        end
    end
  end.

(** OnDecrypt, kms_mrk_keyring.cpp 83-372.  Failure point 0: the copy of line 341; trace record number 0. *)
Definition mrk_on_decrypt (k : mrk) (ev : kms_env) (edks : list edk) (ctx : enc_ctx) (alg : N) (a : dargs) : list kms_call * (dargs * krc) :=
  if negb (is_empty (key_bytes (da_key a))) then ([], (a, KrOk))
  else
    let len := match alg_lookup alg with Some p => Some (ap_content_key_len p) | None => None end in
    let (log, r) := mrk_dec_loop k ev ctx len false 0 edks in
    (log, match r with
          | MkNone failed => (a, if failed then KrErr E_KMS_FAILURE else KrOk)
          | MkUB => (a, KrUB)
          | MkFound info plain =>
            match kv_fail ev 0 with
            | Some e => (mk_dargs None (da_trace a), KrErr e)
            | None => (mk_dargs (dup_key (kv_meta ev) plain)
                         (add_record (kv_record ev 0) (da_trace a) KEY_PROVIDER_STR (c_string info)
                            (N.lor FLAG_DECRYPTED FLAG_VERIFIED_CTX)), KrOk)
            end
          end).

(** OnEncrypt, kms_mrk_keyring.cpp 377-608.  Failure points: 0 and 1 the local lists, 2 and 4 the EDK, 3 the copy of the data
    key. *)
Definition mrk_on_encrypt (k : mrk) (ev : kms_env) (ctx : enc_ctx) (alg : N) (a : kargs) : list kms_call * (kargs * krc) :=
  if is_empty (mk_id k) then ([], (a, KrErr E_BAD_STATE))
  else
    match kv_fail ev 0 with Some e => ([], (a, KrErr e)) | None =>
    match kv_fail ev 1 with Some e => ([], (a, KrErr e)) | None =>
    let region := parse_region (mk_id k) in
    match ka_key a with
    | None =>
      match alg_lookup alg with
      | None => ([], (a, KrErr E_CRYPTO_UNKNOWN))
      | Some p =>
        if negb (kv_client ev 0 region) then ([], (a, KrErr E_BAD_STATE))
        else
          let rq := mk_kms_request region (mk_id k) (OpGenerate (ap_data_key_len p)) ctx (mk_grants k) in
          match kv_call ev 0 rq with
          | None => ([(rq, None)], (a, KrErr E_KMS_FAILURE))
          | Some x =>
            if negb (Nlen (kx_plain x) =? ap_content_key_len p) then ([(rq, Some x)], (a, KrErr E_KMS_FAILURE))
            else if negb (is_valid_kms_key_arn (kx_key x)) then ([(rq, Some x)], (a, KrErr E_KMS_FAILURE))
            else
              let (edks, r) := append_edk (kv_fail ev 2) [] x in
              match r with
              | Some e => ([(rq, Some x)], (a, KrErr e))
              | None =>
                match kv_fail ev 3 with
                | Some e => ([(rq, Some x)], (a, KrErr e))
                | None =>
                  ([(rq, Some x)],
                   kms_finish ev a (dup_key (kv_meta ev) (kx_plain x)) None edks
                     (add_record (kv_record ev 0) [] KEY_PROVIDER_STR (c_string (mk_id k))
                        (N.lor FLAG_GENERATED (N.lor FLAG_ENCRYPTED FLAG_SIGNED_CTX))) KrOk)
                end
              end
          end
      end
    | Some b =>
      if negb (kv_client ev 0 region) then ([], (a, KrErr E_BAD_STATE))
      else
        let rq := mk_kms_request region (mk_id k) (OpEncrypt (kb_bytes b)) ctx (mk_grants k) in
        match kv_call ev 0 rq with
        | None => ([(rq, None)], (a, KrErr E_KMS_FAILURE))
        | Some x =>
          if negb (is_valid_kms_key_arn (kx_key x)) then ([(rq, Some x)], (a, KrErr E_KMS_FAILURE))
          else
            let (edks, r) := append_edk (kv_fail ev 4) [] x in
            match r with
            | Some e => ([(rq, Some x)], (a, KrErr e))
            | None => ([(rq, Some x)],
                       kms_finish ev a (Some b) (Some b) edks
                         (add_record (kv_record ev 0) [] KEY_PROVIDER_STR (c_string (mk_id k)) (N.lor FLAG_ENCRYPTED FLAG_SIGNED_CTX)) KrOk)
            end
        end
    end end end.

Definition mrk_keyring (k : mrk) (ev : kms_env) : keyring :=
  mk_keyring (Some (fun ctx alg a => snd (mrk_on_encrypt k ev ctx alg a))) (Some (fun edks ctx alg a => snd (mrk_on_decrypt k ev edks ctx alg a))).

(** Builder::Build, kms_mrk_keyring.cpp 629-649 *)
Definition mrk_build (grants : list (list N)) (id : list N) : option mrk :=
  if is_empty id || negb (is_valid_kms_identifier id) then None else Some (mk_mrk id [] None grants).

(** Builder::BuildDiscovery, kms_mrk_keyring.cpp 678-699, with a KMS client *)
Definition mrk_build_discovery (grants : list (list N)) (region : list N) (f : option dfilter) : option mrk :=
  if is_empty region then None else Some (mk_mrk [] region f grants).

(** The other BuildDiscovery, without a filter, kms_mrk_keyring.cpp 660-676, with a KMS client; the region is not checked. *)
Definition mrk_build_region (grants : list (list N)) (region : list N) : mrk := mk_mrk [] region None grants.

(** The children of lines 844-870 *)
Fixpoint mrk_children (client : nat -> list N -> bool) (grants : list (list N)) (i : nat) (ids : list (list N)) : option (list mrk) :=
  match ids with
  | [] => Some []
  | id :: ids' =>
    let region := parse_region id in
    if is_empty region || negb (client i region) then None
    else match mrk_build grants id, mrk_children client grants (S i) ids' with
         | Some k, Some ks => Some (k :: ks)
         | _, _ => None
         end
  end.

(** MultiKeyringBuilder::Build and _Build, kms_mrk_keyring.cpp 736-893: generator, if any, and children, or NULL.  [gen] is
    [None] for the overload without a generator.  [client i region]: whether the client supplier returns a client. Memory
    allocation succeeds. *)
Definition mrk_multi_build (client : nat -> list N -> bool) (grants : list (list N)) (gen : option (list N)) (ids : list (list N)) : option (option mrk * list mrk) :=
  if match gen with Some g => is_empty g | None => false end then None
  else
    let all := match gen with Some g => g :: ids | None => ids end in
    if existsb is_empty ids then None
    else if match all with [] => true | _ => false end then None
    else if Nat.ltb 0 (length (find_duplicate_kms_mrk_ids all)) then None
    else
      match gen with
      | None => match mrk_children client grants 1 ids with Some ks => Some (None, ks) | None => None end
      | Some g =>
        if negb (client 0%nat (parse_region g)) then None
        else match mrk_build grants g with
             | None => None
             | Some kg => match mrk_children client grants 1 ids with Some ks => Some (Some kg, ks) | None => None end
             end
      end.
