(** C75: KMS clients and their suppliers. *)
From Verif Require Import Base AlgModel EncCtxModel HdrModel FrameModel CryptoModel SessionModel KeyringModel KmsModel ClientModel WireSpec SessionSpec KeyringSpec
  KmsSpec ClientSpec ArnProofs SessionExamples KeyringExamples KmsExamples MrkProofs ClientProofs ClientTheorems ClientBuild.
From Coq Require Import String Arith Lia.
Import List.
Open Scope list_scope.
Open Scope N_scope.

(** KMS answers every request, or none. *)
Definition yes : reply := mk_reply (Some (mk_kms_result arn_a [1; 2] (repeat 5 32))) None CUnset.
Definition no : reply := mk_reply None None CUnset.
Definition enc : use := UEncrypt toy_env toy_ctx 0x0578 no_args.
Definition dec : use := UDecrypt toy_env [mk_edk (text "aws-kms") arn_a [7]; mk_edk (text "aws-kms") arn_b [7]; mrk_edk] toy_ctx 0x0578 (mk_dargs None []).

(** Unless the application provides clients of other regions, a request goes to a client in the region of the key it names (or to one in
    the default region, if the key is named without a region), for any number of threads, keyrings and suppliers; a cached client is one
    for its region. *)
Theorem C75_right_region : forall k0 j0 tss sched ts st, Forall (Forall consistent) tss -> crun sched (map thread tss) (cs_init k0 j0) = (ts, st) ->
  (forall c rq o, In (ESend c rq o) (cs_log st) -> region_or_none (kq_key rq) (cl_region c)) /\ (forall n r c, cs_cache st n r = Some c -> cl_region c = r).
Proof. exact right_region. Qed.
Print Assumptions C75_right_region.
Definition ex_threads : list (list task) :=
  [[TUse (KKms toy_kms (SCaching 0)) enc; TUse (KMrk mrk_disc (SCaching 0)) dec]; [TBuild (BMulti None [] (Some mrk_us) [arn_a]) [(0%nat, enc); (1%nat, dec)]];
   [TBuild (BKms (Some (mk_client 9 (text "us-west-2"))) None [] arn_a []) [(0%nat, dec)]]].
Definition ex_sched : list (nat * reply) := flat_map (fun _ => [(0%nat, yes); (1%nat, yes); (2%nat, no)]) (repeat tt 20).
Example C75_region_example : Forall (Forall consistent) ex_threads /\
  (let '(ts, st) := crun ex_sched (map thread ex_threads) (cs_init 1 10) in
   ts = [Ret tt; Ret tt; Ret tt] /\
   map (fun e => match e with ENew c => (0%nat, cl_region c) | ESend c rq o => (match o with Some _ => 2%nat | None => 1%nat end, cl_region c) | EPut n c => (3%nat, cl_region c) end) (cs_log st) =
     [(1%nat, text "us-west-2"); (0%nat, text "us-west-2"); (2%nat, text "us-west-2"); (0%nat, text "us-east-1"); (3%nat, text "us-west-2"); (0%nat, text "us-west-2");
      (0%nat, text "eu-central-1"); (2%nat, text "us-east-1"); (2%nat, text "eu-central-1"); (2%nat, text "us-west-2"); (3%nat, text "eu-central-1"); (0%nat, text "ap-south-1");
      (2%nat, text "ap-south-1"); (3%nat, text "ap-south-1")]).
Proof.
  split; [|vm_compute; repeat split].
  assert (W : names_region arn_a (text "us-west-2")) by (apply parse_region_spec; split; [reflexivity|discriminate]).
  repeat (apply Forall_cons || apply Forall_nil); cbn; auto.
  - split; [|exact I]. intros _. split; [discriminate|]. cbn. intuition discriminate.
  - intros id [<-|[]]. left. exact W.
Qed.

(** A supplier's callable that was never set is not called, provided that the application's own suppliers set it when they return a client
    and no builder asks one of them for the client of its only key. *)
Theorem C75_no_exception_partial : forall k0 j0 tss sched ts st, Forall (Forall (never_asks_early is_custom)) tss -> Forall (fun x => polite (snd x)) sched ->
  crun sched (map thread tss) (cs_init k0 j0) = (ts, st) -> ~ In Throw ts.
Proof. exact no_throw. Qed.
Print Assumptions C75_no_exception_partial.
Example C75_exception_example : Forall (Forall (never_asks_early is_custom)) [[TUse (KKms toy_kms (SCustom 0)) enc; TBuild (BKms None (Some (SCustom 0)) [] arn_a [arn_b]) [(0%nat, enc)]]] /\
  Forall (fun x : nat * reply => polite (snd x)) (repeat (0%nat, no) 4) /\
  fst (crun (repeat (0%nat, no) 4) (map thread [[TUse (KKms toy_kms (SCustom 0)) enc; TBuild (BKms None (Some (SCustom 0)) [] arn_a [arn_b]) [(0%nat, enc)]]]) (cs_init 1 10)) = [Ret tt].
Proof. split; [repeat constructor; cbn; intros s []|]. split; [repeat constructor|]. reflexivity. Qed.

(** Without the second proviso it is false: a supplier that, as documented, returns a null pointer for a region it does not serve makes
    the builder of a keyring with that one key call the callable, which the supplier had no reason to set. *)
Theorem C75_refusing_supplier_refuted : exists tss sched ts st, Forall (fun x => polite (snd x)) sched /\
  crun sched (map thread tss) (cs_init 1 10) = (ts, st) /\ In Throw ts.
Proof.
  exists [[TBuild (BKms None (Some (SCustom 0)) [] arn_a []) [(0%nat, enc)]]], [(0%nat, no)]. eexists _, _.
  split; [repeat constructor|]. split; [reflexivity|]. left. reflexivity.
Qed.
Print Assumptions C75_refusing_supplier_refuted.

(** A client is kept in a supplier's cache only after KMS answered a request made with it, provided that no builder asks that supplier
    for the client of its only key; a region that is in the cache stays there. *)
Theorem C75_kept_after_success_partial : forall k0 j0 tss sched ts st, Forall (Forall (never_asks_early is_caching)) tss -> Forall (fun x => separate (snd x)) sched ->
  crun sched (map thread tss) (cs_init k0 j0) = (ts, st) -> forall n r c, cs_cache st n r = Some c -> kept_after_success (cs_log st) n c.
Proof. exact kept_lemma. Qed.
Print Assumptions C75_kept_after_success_partial.
Theorem C75_region_stays : forall A sched (ts : list (prog A)) st ts' st' n r, crun sched ts st = (ts', st') -> cs_cache st n r <> None -> cs_cache st' n r <> None.
Proof. exact stays_lemma. Qed.
Print Assumptions C75_region_stays.
Example C75_kept_example : Forall (Forall (never_asks_early is_caching)) ex_threads /\ Forall (fun x : nat * reply => separate (snd x)) ex_sched /\
  cs_cache (snd (crun ex_sched (map thread ex_threads) (cs_init 1 10))) 0 (text "eu-central-1") = Some (mk_client 13 (text "eu-central-1")) /\
  cs_cache (snd (crun ex_sched (map thread ex_threads) (cs_init 1 10))) 0 (text "us-east-1") = None.
Proof. split; [repeat constructor; cbn; intros s []|]. split; [repeat constructor|]. split; reflexivity. Qed.

(** With such a builder the client is kept although no request was ever made with it. *)
Theorem C75_kept_unused_refuted : exists tss sched ts st c, crun sched (map thread tss) (cs_init 1 10) = (ts, st) /\
  cs_cache st 0 (text "us-west-2") = Some c /\ forall c' rq o, ~ In (ESend c' rq o) (cs_log st).
Proof.
  exists [[TBuild (BKms None (Some (SCaching 0)) [] arn_a []) []]], (repeat (0%nat, no) 3). eexists _, _, _.
  split; [reflexivity|]. split; [reflexivity|]. cbn. intros c' rq o [H|[H|[]]]; discriminate.
Qed.
Print Assumptions C75_kept_unused_refuted.

(** In one thread, whose keyrings share a caching supplier: once KMS answered a request in a region, every later request in that region
    uses the same client and no other client is made for the region. *)
Theorem C75_one_client_partial : forall k0 j0 n ts sched ps st, Forall (uses_supplier (SCaching n)) ts -> crun sched [thread ts] (cs_init k0 j0) = (ps, st) -> one_client (cs_log st).
Proof. exact one_client_lemma. Qed.
Print Assumptions C75_one_client_partial.
Example C75_one_client_example :
  Forall (uses_supplier (SCaching 0)) [TUse (KKms toy_kms (SCaching 0)) enc; TUse (KKms toy_kms (SCaching 0)) enc] /\
  cs_log (snd (crun (repeat (0%nat, yes) 20) [thread [TUse (KKms toy_kms (SCaching 0)) enc; TUse (KKms toy_kms (SCaching 0)) enc]] (cs_init 1 10))) =
    (let w := mk_client 10 (text "us-west-2") in let e := mk_client 11 (text "eu-central-1") in let k := repeat 5 32 in
     let rq r a o := mk_kms_request (text r) a o toy_ctx [text "grant"] in
     [ENew w; ESend w (rq "us-west-2"%string arn_a (OpGenerate 32)) (rp_call yes); EPut 0 w;
      ENew e; ESend e (rq "eu-central-1"%string arn_b (OpEncrypt k)) (rp_call yes); EPut 0 e;
      ESend w (rq "us-west-2"%string arn_a (OpGenerate 32)) (rp_call yes); ESend e (rq "eu-central-1"%string arn_b (OpEncrypt k)) (rp_call yes)]).
Proof. split; [repeat constructor|]. reflexivity. Qed.

(** Two threads may each make a client for the region and use it; the second one replaces the first in the cache. *)
Theorem C75_one_client_refuted : exists tss sched ts st, Forall (Forall (uses_supplier (SCaching 0))) tss /\ crun sched (map thread tss) (cs_init 1 10) = (ts, st) /\
  ~ one_client (cs_log st) /\ exists c d, In (EPut 0 c) (cs_log st) /\ In (EPut 0 d) (cs_log st) /\ cl_region c = cl_region d /\ c <> d.
Proof.
  exists [[TUse (KMrk mrk_k_us (SCaching 0)) enc]; [TUse (KMrk mrk_k_us (SCaching 0)) enc]], (flat_map (fun _ => [(0%nat, yes); (1%nat, yes)]) (repeat tt 4)).
  eexists _, _. split; [repeat constructor|]. split; [vm_compute; reflexivity|]. split.
  - intros O. cbn in O. specialize (O [_; _] _ _ _ _ eq_refl _ (or_introl eq_refl)). cbn in O. specialize (O eq_refl). discriminate.
  - exists (mk_client 10 (text "us-east-1")), (mk_client 11 (text "us-east-1")). cbn. repeat split; auto 10. discriminate.
Qed.
Print Assumptions C75_one_client_refuted.

(** A keyring built with a client sends everything through it and makes no other; one built with a single key and nothing else makes
    one client, for good. *)
Theorem C75_given_client : forall k0 j0 b c us sched ps st, given_client b c -> crun sched [thread [TBuild b us]] (cs_init k0 j0) = (ps, st) ->
  all_sent_with c (cs_log st) /\ made (cs_log st) = [].
Proof. exact given_client_lemma. Qed.
Print Assumptions C75_given_client.
Theorem C75_one_key : forall k0 j0 b us sched ps st, only_key b -> crun sched [thread [TBuild b us]] (cs_init k0 j0) = (ps, st) ->
  cs_log st = [] \/ exists c, all_sent_with c (cs_log st) /\ made (cs_log st) = [c].
Proof. exact one_key_lemma. Qed.
Print Assumptions C75_one_key.
Example C75_builders_example :
  given_client (BKms (Some (mk_client 9 [])) None [] arn_a [arn_b]) (mk_client 9 []) /\ only_key (BMrk None None [] mrk_us) /\
  length (cs_log (snd (crun (repeat (0%nat, yes) 9) [thread [TBuild (BKms (Some (mk_client 9 [])) None [] arn_a [arn_b]) [(0%nat, enc); (0%nat, dec)]]] (cs_init 1 10)))) = 3%nat /\
  length (cs_log (snd (crun (repeat (0%nat, no) 9) [thread [TBuild (BMrk None None [] mrk_us) [(0%nat, enc); (0%nat, dec)]]] (cs_init 1 10)))) = 3%nat.
Proof. repeat split. Qed.

(** The programs give the results and the logs of KmsModel.v, for some answers of its oracles, with any supplier; so the theorems about
    that model hold of them. *)
Theorem C75_kms_decrypt_agrees : forall k s ev edks ctx alg a,
  yields (as_modelled ev (fun ev' => kms_on_decrypt k ev' edks ctx alg a)) (kms_on_decrypt_p k s ev edks ctx alg a (fun log r => Ret (log, r))).
Proof. exact kms_decrypt_yields. Qed.
Print Assumptions C75_kms_decrypt_agrees.
Theorem C75_kms_encrypt_agrees : forall k s ev ctx alg a,
  yields (as_modelled ev (fun ev' => kms_on_encrypt k ev' ctx alg a)) (kms_on_encrypt_p k s ev ctx alg a (fun log r => Ret (log, r))).
Proof. exact kms_encrypt_yields. Qed.
Print Assumptions C75_kms_encrypt_agrees.
Theorem C75_mrk_decrypt_agrees : forall k s ev edks ctx alg a,
  yields (as_modelled ev (fun ev' => mrk_on_decrypt k ev' edks ctx alg a)) (mrk_on_decrypt_p k s ev edks ctx alg a (fun log r => Ret (log, r))).
Proof. exact mrk_decrypt_yields. Qed.
Print Assumptions C75_mrk_decrypt_agrees.
Theorem C75_mrk_encrypt_agrees : forall k s ev ctx alg a,
  yields (as_modelled ev (fun ev' => mrk_on_encrypt k ev' ctx alg a)) (mrk_on_encrypt_p k s ev ctx alg a (fun log r => Ret (log, r))).
Proof. exact mrk_encrypt_yields. Qed.
Print Assumptions C75_mrk_encrypt_agrees.
Example C75_agrees_example : as_modelled toy_env (fun ev' => kms_on_encrypt toy_kms ev' toy_ctx 0x0578 no_args) (kms_on_encrypt toy_kms toy_env toy_ctx 0x0578 no_args) /\
  length (fst (kms_on_encrypt toy_kms toy_env toy_ctx 0x0578 no_args)) = 2%nat.
Proof. split; [|reflexivity]. exists (kv_client toy_env), (kv_call toy_env). reflexivity. Qed.

(** The builders make the keyrings of KmsModel.v and BuildModel.v, whatever suppliers and other threads answer; the members of a
    multi-keyring have a client of their own. *)
Theorem C75_builder_agrees : forall b, yields (fun o => built_as b o /\ own_clients b o) (build_p b Ret).
Proof. exact build_yields. Qed.
Print Assumptions C75_builder_agrees.
Example C75_builder_example : obliging None /\
  mrk_multi_build (fun _ _ => true) [] (Some mrk_us) [arn_a] <> None /\
  snd (crun [(0%nat, mk_reply None None CNoop)] [build_p (BDiscovery None None [] (Some (mk_filter [97] [[49]]))) Ret] (cs_init 0 0)) <> cs_init 0 0 /\
  fst (crun [(0%nat, mk_reply None None CNoop)] [build_p (BDiscovery None None [] (Some (mk_filter [97] [[49]]))) Ret] (cs_init 0 0)) =
    [Ret (Some [KKms (mk_kms [] (Some (mk_filter [97] [[49]])) []) (SCaching 0)])].
Proof. split; [exact I|]. split; [vm_compute; discriminate|]. split; [|reflexivity]. intro H. apply (f_equal cs_made) in H. discriminate. Qed.
