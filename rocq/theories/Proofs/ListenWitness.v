(** Examples for the listening side. *)
From Verif.Proofs Require Export ListenProofs.
From Verif.Model Require Export Listen.
From Verif.Spec Require Import Common PathSpec RoutingSpec TextSpec RequestSpec ResponseSpec ServerSpec ListenSpec.

(** Files: ["cert"] and ["key"] are good, ["pkcs8"] holds no RSA key, ["bad"] does not parse. *)
Definition demo_tls : tls_lib := {|
  tls_cert := str; tls_key := str;
  tl_read := fun p => if seqb p (B "cert") then PemText (B "C") else if seqb p (B "key") then PemText (B "K")
                      else if seqb p (B "pkcs8") then PemText (B "8") else if seqb p (B "bad") then PemText (B "?")
                      else if seqb p (B "dir") then PemUnreadable else PemNoOpen;
  tl_certs := fun s => if seqb s (B "?") then None else Some [s];
  tl_rsa_keys := fun s => if seqb s (B "?") then None else if seqb s (B "8") then Some [] else Some [s];
  tl_single_cert := fun cs k => match cs with [] => false | _ => seqb k (B "K") end;
  tl_ossl_init := true;
  tl_ossl_key := fun p => seqb p (B "key");
  tl_ossl_chain := fun p => seqb p (B "cert") |}.
Definition tls_config (key cert : str) : config := Config None (Ssl key cert 443) None.
Definition os_fine : os_results := OsResults true true true true true true.
Definition li_x : world * order := (ex_world, insertion_order).
Definition li_run f key evs := sys_run default_features demo_lib ro_handle ex_router
  (sys_start demo_tls f (tls_config key (B "cert")) os_fine os_fine 80 7) evs.
(** 1 and 3 are plain connections, 2 and 4 TLS connections; the handshake of 4 fails. *)
Definition odd_plain (i : nat) : bool := Nat.even i.
Definition li_evs : list sys_event :=
  [SyPlain (AcOk 1); SyTls (AcOk 2); SyTls (AcOk 4); SyConn 2 (Arrive get_hi) li_x; SyHandshake 4 false;
   SyConn 1 (Arrive (firstn 9 get_hi)) li_x; SyHandshake 2 true; SyConn 4 (Arrive get_hi) li_x; SyTls AcErr; SyTls (AcOk 6);
   SyConn 2 (Arrive get_hi) li_x; SyPlain (AcOk 3); SyConn 1 (Arrive (skipn 9 get_hi)) li_x].
Lemma li_separate : separate odd_plain li_evs.
Proof.
  intro i. unfold li_evs. cbn [In]. split; intro X;
    repeat (destruct X as [X|X]; [try discriminate; try (injection X as <-; reflexivity)|]); contradiction.
Qed.
Definition hi_answer : str := answer_head (B "200 OK") (B "2") ++ B "hi".
