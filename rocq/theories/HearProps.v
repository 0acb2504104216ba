(** * C88, for everything a client may send however it arrives: which lines are heard, pieces that are not UTF-8 included. *)
From Verif Require Import Base BaseFacts TelemetryModel ParseModel ParseSpec ParseProofs GraphiteModel GraphiteSpec GraphiteProofs GraphiteProps HearSpec HearProofs Utf8 QExample TelemetryProps ParseProps.
Open Scope string_scope. Open Scope list_scope. Open Scope nat_scope.

(** Whatever arrives, one list of lines is heard. *)
Theorem C88_heard_once : forall ws, exists ls part left, hearing false [] [] ws ls part left /\
  forall ls' part' left', hearing false [] [] ws ls' part' left' -> ls' = ls /\ part' = part /\ left' = left.
Proof.
  intros ws. destruct (@run_hears xQ xpf xpi xwords xbase ws graphite_start Logic.eq_refl) as (ls & p & l & H & _). exists ls, p, l. split; [exact H|].
  intros ls' p' l' H'. destruct (hearing_fun _ _ _ _ _ _ _ H _ _ _ H') as (-> & -> & ->). auto.
Qed.
(** And those are the lines parsed, each once and in order; what of the next line was heard, and what waits, is what is kept. *)
Theorem C88_exact : forall (Q : QLib) (pf : string -> option f64) (pi : string -> option Z) (words : list N -> list string) (base : telemetry) ws ls part left,
  hearing false [] [] ws ls part left ->
  exists sent kept g b, source_loop (gparse pf pi words base) ls [] = Some (sent, kept, g, b) /\
    let s := graphite_run pf pi words base ws in
    g_sent s = sent /\ g_res s = kept /\ g_good s = g /\ g_telem s = g /\ g_bad s = b /\ g_line s = part /\ g_avail s = left.
Proof.
  intros Q pf pi words base ws ls part left H. destruct (run_hears pf pi words base ws graphite_start Logic.eq_refl) as (ls' & p & l & H' & (a & k & g & b & E & M)).
  destruct (hearing_fun _ _ _ _ _ _ _ H _ _ _ H') as (-> & -> & ->). exists a, k, g, b. split; [exact E|]. unfold graphite_run. cbv zeta. rewrite M. cbn. repeat split.
Qed.
(** A line whose middle came cut inside a character: its two ends become one line.  And a piece that is not UTF-8 holds back what came behind it. *)
Example C88_exact_ex :
  hearing false [] [] [GData [98; 32]; GData [195]; GData [49; 32; 49; 48; 10; 98]]%N [[98; 32; 49; 32; 49; 48; 10]]%N [98]%N [] /\
  g_sent (xrun [GData [98; 32]; GData [195]; GData [49; 32; 49; 48; 10; 98]]%N) = [xpoint "b"] /\
  hearing false [] [] [GData ([255; 10] ++ xb); GSystem; GData [10]]%N [] [] xb.
Proof.
  split; [|split; [reflexivity|]].
  - apply (hg_data false [] [] _ _ [] [[98; 32; 49; 32; 49; 48; 10]]%N [98; 32]%N []); [apply (h_part false [] [98; 32]%N); [discriminate|cbn; intuition discriminate|reflexivity|reflexivity]|].
    apply (hg_data false [98; 32]%N [] _ _ [] [[98; 32; 49; 32; 49; 48; 10]]%N [98; 32]%N []); [apply h_bad_part; [cbn; intuition discriminate|reflexivity]|].
    apply (hg_data false [98; 32]%N [] _ _ [[98; 32; 49; 32; 49; 48; 10]]%N [] [98]%N []); [|constructor].
    apply (h_line false [98; 32]%N [49; 32; 49; 48; 10]%N [98]%N); [exists [49; 32; 49; 48]%N; split; [reflexivity|cbn; intuition discriminate]|reflexivity|].
    apply (h_part false [] [98]%N); [discriminate|cbn; intuition discriminate|reflexivity|reflexivity].
  - apply (hg_data false [] [] _ _ [] [] [] xb); [|apply hg_stop]. apply (h_bad false [] [255; 10]%N xb); [exists [255]%N; split; [reflexivity|cbn; intuition discriminate]|reflexivity].
Qed.
Print Assumptions C88_heard_once.
Print Assumptions C88_exact.
