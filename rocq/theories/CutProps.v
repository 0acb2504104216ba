(** * C31, for every way bytes arrive: what is read when the socket runs dry inside length fields too. *)
From Verif Require Import Base BaseFacts FramingModel FramingSpec FramingProofs CutSpec CutProofs.
Open Scope list_scope. Open Scope nat_scope.

(** The portions are the bytes that arrive, cut where the socket ran dry. *)
Theorem C31_portions : forall sc, List.concat (portions sc) = bytes_of sc /\ List.length (portions sc) = S (List.length (filter (fun a => match a with ABlock => true | _ => false end) sc)).
Proof.
  induction sc as [|a sc [IH1 IH2]]; [split; reflexivity|]. destruct (portions_cons sc) as (s & r & E). destruct a as [bs| | |]; cbn [portions filter]; rewrite ?bytes_cons; cbn [app].
  - rewrite E in *. cbn [List.concat List.length] in *. rewrite <- app_assoc, IH1. auto.
  - cbn [List.concat List.length app]. rewrite IH1, IH2. auto.
  - auto.
  - auto.
Qed.
(** Exactly what is handed on, and how it ends, whatever bytes arrive however cut, for every size of the buffer. *)
Theorem C31_exact : forall cap max sc ps e, 0 < cap -> healthy sc -> (handle_stream cap max sc = (ps, e) <-> reads max (portions sc) ps e).
Proof.
  intros cap max sc ps e Hc Hh.
  assert (G : forall ps e, handle_stream cap max sc = (ps, e) -> reads max (portions sc) ps e).
  { intros ps0 e0 E. unfold handle_stream in E. assert (S : sane max (reader_new sc)) by (split; [exact Hh|reflexivity]).
    pose proof (handle_portions cap max Hc (1 + sock_size sc) (reader_new sc) S ltac:(change (sock_size sc < 1 + sock_size sc); lia) _ _ E) as W. unfold will in W. cbn [b_size reader_new] in W.
    unfold ahead in W. cbn [b_buf b_sock reader_new] in W. rewrite (prep_nil _ (portions_nn sc)) in W. exact W. }
  split; [apply G|]. intros R. destruct (handle_stream cap max sc) as [ps' e'] eqn:E. destruct (reads_fun _ _ _ _ (G _ _ eq_refl) _ _ R) as [-> ->]. reflexivity.
Qed.
(** In particular the size of the buffer and the cutting within a portion do not matter. *)
Theorem C31_only_dry_moments : forall cap cap' max sc sc', 0 < cap -> 0 < cap' -> healthy sc -> healthy sc' -> portions sc = portions sc' -> handle_stream cap max sc = handle_stream cap' max sc'.
Proof.
  intros cap cap' max sc sc' Hc Hc' Hh Hh' E. destruct (handle_stream cap' max sc') as [ps e] eqn:R. apply C31_exact; [assumption..|]. rewrite E. apply (C31_exact cap' max sc'); assumption.
Qed.
(** Two bytes of a length are forgotten; what follows is taken for a length, and the payload behind it ends the stream as over-long.
    In the second script the bytes forgotten are those of a client that gave up, and the payload is read. *)
Example C31_exact_ex :
  let sc := [AData [0; 0]%N; ABlock; AData [0; 2; 7]%N; AData [7]%N] in let sc2 := [AData [9]%N; ABlock; ABlock; AData [0; 0; 0; 2; 7]%N; ABlock; AData [8]%N] in
  healthy sc /\ portions sc = [[0; 0]; [0; 2; 7; 7]]%N /\ reads 100 (portions sc) [] ETooLarge /\ handle_stream 16 100 sc = ([], ETooLarge) /\
  healthy sc2 /\ portions sc2 = [[9]; []; [0; 0; 0; 2; 7]; [8]]%N /\ reads 100 (portions sc2) [[7; 8]%N] EEof.
Proof.
  cbv zeta. split; [repeat constructor; discriminate|]. split; [reflexivity|]. split.
  { cbn. apply rd_lost; [cbn; lia|]. apply (rd_large 100 [0; 2; 7; 7]%N [] []); [reflexivity|]. apply Nat.ltb_lt. vm_compute. reflexivity. }
  split; [vm_compute; reflexivity|]. split; [repeat constructor; discriminate|]. split; [reflexivity|].
  cbn. apply rd_lost; [cbn; lia|]. apply rd_lost; [cbn; lia|]. apply (rd_payload 100 [0; 0; 0; 2]%N [7]%N _ _ [[]]); [reflexivity|vm_compute; lia|reflexivity|]. apply rd_closed. cbn. lia.
Qed.
Print Assumptions C31_portions.
Print Assumptions C31_exact.
Print Assumptions C31_only_dry_moments.
