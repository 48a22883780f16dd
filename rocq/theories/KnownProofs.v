(** The model run on the known cache ids and headers of KnownData.v. *)
From Verif Require Import Base AlgModel EncCtxModel HdrModel WireSpec EncCtxProofs HdrProofs CryptoModel SessionModel CachingModel KeyringModel KeyringSpec RawKeyringProofs RealCrypto VectorData KnownData.
From Coq Require Import String Permutation.
Import List.
Open Scope list_scope.
Open Scope N_scope.

Lemma C85_enc_lemma : Forall enc_id_known enc_id_kats.
Proof. repeat (apply Forall_cons; [intros psize policy; vm_compute; reflexivity|]). constructor. Qed.
Lemma C85_dec_lemma : Forall dec_id_known dec_id_kats.
Proof. repeat (apply Forall_cons; [vm_compute; reflexivity|]). constructor. Qed.

(** What is read, and what error there is, do not depend on what follows. *)
Lemma parse_app m s h r t : hdr_parse m s = Ok (h, r) -> hdr_parse m (s ++ t) = Ok (h, r ++ t).
Proof. destruct (good_hdr_parse m) as [_ [H _]]. apply H. Qed.
Lemma parse_bad m s t : hdr_parse m s = Err E_BAD_CIPHERTEXT -> hdr_parse m (s ++ t) = Err E_BAD_CIPHERTEXT.
Proof. destruct (good_hdr_parse m) as [_ [_ H]]. intro E. apply H; [exact E|discriminate]. Qed.
Definition short (x : res (hdr * list N)) : bool := match x with Err E_SHORT_BUFFER => true | _ => false end.
Lemma shorts_check bytes : forallb (fun n => short (hdr_parse 0 (firstn n bytes))) (seq 0 (length bytes - 1)) = true ->
  forall n, (n < length bytes - 1)%nat -> hdr_parse 0 (firstn n bytes) = Err E_SHORT_BUFFER.
Proof.
  intros H n L. rewrite forallb_forall in H. specialize (H n ltac:(apply in_seq; split; [apply le_0_n|exact L])).
  unfold short in H. destruct (hdr_parse 0 (firstn n bytes)) as [|[]]; congruence.
Qed.
Ltac known := split; [let t := fresh in intro t; apply (parse_app 0 _ _ [] t); vm_compute; reflexivity|];
  split; [vm_compute; reflexivity|]; split; [vm_compute; reflexivity|]; split; [exists E_SHORT_BUFFER; vm_compute; reflexivity|vm_compute; reflexivity].
Lemma C85_headers_lemma :
  header_known header_1 (struct_1 [pair_0; pair_1] header_1) /\ header_known header_2 (struct_1 [] header_2) /\ header_known header_v2 struct_v2 /\
  hdr_write (struct_1 [pair_1; pair_0] header_1) (Nlen header_1 - 1) = Ok (removelast header_1).
Proof. split; [known|]. split; [known|]. split; [known|]. vm_compute. reflexivity. Qed.
Lemma C85_bad_headers_lemma :
  (forall bad rest, In bad bad_headers -> hdr_parse 0 (bad ++ rest) = Err E_BAD_CIPHERTEXT) /\
  (forall h n, In h [header_1; header_2; header_v2] -> (n < length h - 1)%nat -> hdr_parse 0 (firstn n h) = Err E_SHORT_BUFFER).
Proof.
  split.
  - intros bad rest I. apply parse_bad. unfold bad_headers in I. cbn [In] in I. repeat (destruct I as [<-|I]; [vm_compute; reflexivity|]). destruct I.
  - intros h n I. cbn [In] in I. repeat (destruct I as [<-|I]; [apply shorts_check; vm_compute; reflexivity|]). destruct I.
Qed.

(** Sizes and serializations do not depend on the order of the pairs. *)
Lemma size_perm c d n : Permutation c d -> enc_ctx_size c = Ok n -> enc_ctx_size d = Ok n.
Proof.
  intros P H. apply enc_ctx_size_ok in H. destruct H as [-> F]. apply enc_ctx_size_ok. unfold ctx_fits in *.
  rewrite (Nlen_wire_ctx_perm _ _ P) in *. auto.
Qed.
Lemma serialize_perm cap len c d n : distinct_keys c -> Permutation c d -> enc_ctx_size c = Ok n ->
  enc_ctx_serialize cap len d = enc_ctx_serialize cap len c.
Proof.
  intros D P Z. unfold enc_ctx_serialize. rewrite Z, (size_perm _ _ _ P Z), (ctx_sort_unique _ _ D P).
  replace (Nlen d) with (Nlen c) by (unfold Nlen; now rewrite (Permutation_length P)). reflexivity.
Qed.
Ltac ctx_case := intros c P; cbn [fst snd] in *;
  match goal with |- _ /\ enc_ctx_serialize ?n 0 _ = _ => match type of P with Permutation ?a _ =>
    let Z := fresh in assert (Z : enc_ctx_size a = Ok n) by (vm_compute; reflexivity);
    let D := fresh in assert (D : distinct_keys a) by
      (unfold distinct_keys; cbn [map fst]; repeat (apply NoDup_cons;
         [let Hin := fresh in intros Hin; cbn [In] in Hin; repeat (destruct Hin as [Hin|Hin]; [vm_compute in Hin; discriminate Hin|]); exact Hin|]); apply NoDup_nil);
    split; [exact (size_perm _ _ _ P Z)|rewrite (serialize_perm _ _ _ _ _ D P Z); vm_compute; reflexivity] end end.
Lemma C85_contexts_lemma : Forall ctx_known ctx_kats /\ forall old, enc_ctx_deserialize old twice_ctx = ([], Err E_BAD_CIPHERTEXT).
Proof.
  split; [|intro old; vm_compute; reflexivity]. unfold ctx_kats. do 3 (apply Forall_cons; [ctx_case|]). constructor.
Qed.

(** Provider infos, tests/unit/t_raw_aes_keyring_provider_info.c *)
Lemma C85_info_lemma :
  let iv := [0x00; 0x11; 0x22; 0x33; 0x44; 0x55; 0x66; 0x77; 0x88; 0x99; 0xaa; 0xbb] in
  serialize_provider_info (ascii_bytes "Master key id") iv = ascii_bytes "Master key id" ++ [0; 0; 0; 128; 0; 0; 0; 12] ++ iv /\
  (forall name iv, serialize_provider_info name iv = name ++ [0; 0; 0; 128; 0; 0; 0; 12] ++ iv) /\
  (forall name info iv, bytes_ok info ->
     (parse_provider_info name info = Some iv <-> info = name ++ [0; 0; 0; 128; 0; 0; 0; 12] ++ iv /\ Nlen iv = 12)).
Proof.
  split; [vm_compute; reflexivity|]. split; [reflexivity|]. intros name info iv B. split.
  - intro H. destruct (parse_info_inv _ _ _ B H) as [-> L]. split; [reflexivity|exact L].
  - intros [-> L]. exact (parse_info name iv L).
Qed.
