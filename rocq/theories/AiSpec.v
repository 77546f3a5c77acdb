(** What the AI client is to do, stated without the functions of the model. *)
From Coq Require Import QArith.
From Verif Require Import PyStr JsonModel AiModel.
Local Open Scope N_scope.

(** A text that is set and not empty. *)
Definition given (o : option str) (s : str) : Prop := o = Some s /\ s <> [].
(** The first of two texts that is given. *)
Definition preferred (a b : option str) (s : str) : Prop := given a s \/ ((forall t, ~ given a t) /\ given b s).
(** The limits on the numbers of a request. *)
Definition good_limit (o : option Z) : Prop := forall n, o = Some n -> (0 < n)%Z.
Definition good_temperature (o : option float) : Prop := o <> Some (Inf true) /\ forall q, o = Some (Num q) -> (0 <= q)%Q.
Definition good_top_p (o : option float) : Prop := forall x, o = Some x -> exists q, x = Num q /\ (0 <= q)%Q /\ (q <= 1)%Q.

(** A member of an object that is there exactly when the text is given. *)
Definition optional (k : str) (o : option str) (d : dict jvalue) : Prop := forall v, dget k d = Some v <-> exists s, given o s /\ v = JStr s.
(** A message of the chat completions API, and one of the messages API. *)
Definition openai_says (m : message) (j : jvalue) : Prop :=
  exists d, j = JObj d /\ NoDup (map fst d) /\ (forall k, In k (map fst d) -> In k [u "role"; u "content"; u "name"; u "tool_call_id"]) /\
    dget (u "role") d = Some (JStr (m_role m)) /\ dget (u "content") d = Some (JStr (m_content m)) /\
    optional (u "name") (m_name m) d /\ optional (u "tool_call_id") (m_tool m) d.
Definition anthropic_says (m : message) (j : jvalue) : Prop :=
  exists d, j = JObj d /\ NoDup (map fst d) /\ (forall k, In k (map fst d) -> In k [u "role"; u "content"; u "name"]) /\
    dget (u "role") d = Some (JStr (m_role m)) /\ dget (u "content") d = Some (JStr (m_content m)) /\
    optional (u "name") (m_name m) d.
(** The conversation: the system prompt, if given, before the messages. *)
Definition openai_conversation (r : request) (l : list jvalue) : Prop :=
  ((forall s, ~ given (r_system r) s) /\ Forall2 openai_says (r_messages r) l) \/
  (exists s l', given (r_system r) s /\ l = JObj [(u "role", JStr (u "system")); (u "content", JStr s)] :: l' /\ Forall2 openai_says (r_messages r) l').
(** The parameters of a request: a key and its value. *)
Section Params.
Context (float_json : float -> jvalue).
Inductive openai_asks (r : request) (stream : bool) : str -> jvalue -> Prop :=
  | oa_model m : r_model r = Some m -> openai_asks r stream (u "model") (JStr m)
  | oa_stream : openai_asks r stream (u "stream") (JBool stream)
  | oa_temperature t : r_temperature r = Some t -> openai_asks r stream (u "temperature") (float_json t)
  | oa_max n : r_max_tokens r = Some n -> openai_asks r stream (u "max_tokens") (JInt n)
  | oa_top t : r_top_p r = Some t -> openai_asks r stream (u "top_p") (float_json t)
  | oa_stop : r_stop r <> [] -> openai_asks r stream (u "stop") (JArr (map JStr (r_stop r)))
  | oa_metadata : r_metadata r <> [] -> openai_asks r stream (u "metadata") (JObj (r_metadata r)).
(** The system texts of a request: the prompt and the contents of the system messages, without the empty ones. *)
Definition is_system (m : message) : bool := seqb (m_role m) (u "system").
Definition system_texts (r : request) : list str :=
  filter (fun s => negb (seqb s [])) (match r_system r with Some s => [s] | None => [] end ++ map m_content (filter is_system (r_messages r))).
Inductive anthropic_asks (default_max : Z) (r : request) (stream : bool) : str -> jvalue -> Prop :=
  | aa_model m : r_model r = Some m -> anthropic_asks default_max r stream (u "model") (JStr m)
  | aa_stream : anthropic_asks default_max r stream (u "stream") (JBool stream)
  | aa_max n : r_max_tokens r = Some n -> n <> 0%Z -> anthropic_asks default_max r stream (u "max_tokens") (JInt n)
  | aa_default : r_max_tokens r = None \/ r_max_tokens r = Some 0%Z -> anthropic_asks default_max r stream (u "max_tokens") (JInt default_max)
  | aa_system : system_texts r <> [] -> anthropic_asks default_max r stream (u "system") (JStr (join [10; 10] (system_texts r)))
  | aa_temperature t : r_temperature r = Some t -> anthropic_asks default_max r stream (u "temperature") (float_json t)
  | aa_top t : r_top_p r = Some t -> anthropic_asks default_max r stream (u "top_p") (float_json t)
  | aa_stop : r_stop r <> [] -> anthropic_asks default_max r stream (u "stop_sequences") (JArr (map JStr (r_stop r)))
  | aa_metadata : r_metadata r <> [] -> anthropic_asks default_max r stream (u "metadata") (JObj (r_metadata r)).
End Params.

(** A member that is a text, or absent or null, which count as the empty text. *)
Definition text_at (k : str) (d : dict jvalue) (s : str) : Prop :=
  dget k d = Some (JStr s) \/ (s = [] /\ (dget k d = None \/ dget k d = Some JNull)).
(** An event of a streamed chat completion: the text it adds and the reason to finish it gives (empty: none). *)
Record delta := mkDelta { d_event : jvalue; d_text : str; d_finish : str }.
Definition openai_delta (e : delta) : Prop :=
  exists top choice more, d_event e = JObj top /\ dget (u "choices") top = Some (JArr (JObj choice :: more)) /\ text_at (u "finish_reason") choice (d_finish e) /\
    ((exists d, dget (u "delta") choice = Some (JObj d) /\ text_at (u "content") d (d_text e)) \/
     (d_text e = [] /\ (dget (u "delta") choice = None \/ dget (u "delta") choice = Some JNull))).
(** An event of a streamed message: a delta that adds text, the end, or another one. *)
Definition anthropic_delta (e : delta) : Prop :=
  exists top t, d_event e = JObj top /\ dget (u "type") top = Some (JStr t) /\
    ((t = u "content_block_delta" /\ d_finish e = [] /\ exists d, dget (u "delta") top = Some (JObj d) /\ text_at (u "text") d (d_text e)) \/
     (t = u "message_stop" /\ d_text e = [] /\ text_at (u "stop_reason") top (d_finish e)) \/
     (t <> u "content_block_delta" /\ t <> u "message_stop" /\ d_text e = [] /\ d_finish e = [])).
Definition ends_message (e : delta) : bool :=
  match d_event e with JObj top => match dget (u "type") top with Some (JStr t) => seqb t (u "message_stop") | _ => false end | _ => false end.
(** An event that adds text or gives a reason to finish. *)
Definition speaks (e : delta) : bool := negb (seqb (d_text e) [] && seqb (d_finish e) []).
(** A chunk for an event. *)
Definition chunk_for (provider : str) (e : delta) (c : chunk) : Prop :=
  ch_text c = JStr (d_text e) /\ ch_delta c = JStr (d_text e) /\ ch_raw c = d_event e /\ ch_provider c = provider /\
  (ch_finish c = JStr (d_finish e) \/ (d_finish e = [] /\ ch_finish c = JNull)) /\
  (exists top, d_event e = JObj top /\ (dget (u "model") top = Some (ch_model c) \/ (dget (u "model") top = None /\ ch_model c = JNull))).
(** The event stream of a server that writes each event on one line. *)
Definition sse_text (payloads : list str) : str := flat_map (fun p => u "data: " ++ p ++ [10; 10]) payloads.
(** Characters at which Python's [splitlines] cuts, other than the line feed and the carriage return of the event stream format. *)
Definition odd_break (c : N) : Prop := In c [11; 12; 28; 29; 30; 133; 8232; 8233].

(** A count of tokens: a number, or absent or null, which count as 0. *)
Definition tokens (k : str) (d : dict jvalue) (n : Z) : Prop := dget k d = Some (JInt n) \/ (n = 0%Z /\ (dget k d = None \/ dget k d = Some JNull)).
(** The usage in a reply of the chat completions API: the total is their sum when it is not there. *)
Definition openai_usage (top : dict jvalue) (us : option usage) : Prop :=
  (us = None /\ (dget (u "usage") top = None \/ dget (u "usage") top = Some JNull)) \/
  (exists d i o t, dget (u "usage") top = Some (JObj d) /\ d <> [] /\ us = Some (mkUsage i o t) /\ tokens (u "prompt_tokens") d i /\ tokens (u "completion_tokens") d o /\
     (dget (u "total_tokens") d = Some (JInt t) \/ (dget (u "total_tokens") d = None /\ t = (i + o)%Z))).
(** A reply of the chat completions API. *)
Definition openai_reply (data : jvalue) (text finish : str) (us : option usage) : Prop :=
  exists top choice more msg, data = JObj top /\ dget (u "choices") top = Some (JArr (JObj choice :: more)) /\ dget (u "message") choice = Some (JObj msg) /\
    text_at (u "content") msg text /\ text_at (u "finish_reason") choice finish /\ openai_usage top us.
(** A reply of the messages API: its blocks, each with the text it adds. *)
Definition adds (b : jvalue) (s : str) : Prop :=
  exists d t, b = JObj d /\ dget (u "type") d = Some (JStr t) /\
    ((t = u "text" /\ dget (u "text") d = Some (JStr s)) \/ (t <> u "text" /\ s = [])).
Definition anthropic_reply (data : jvalue) (texts : list str) (finish : str) (i o : Z) : Prop :=
  exists top bs, data = JObj top /\ dget (u "content") top = Some (JArr bs) /\ bs <> [] /\ Forall2 adds bs texts /\ text_at (u "stop_reason") top finish /\
    ((exists d, dget (u "usage") top = Some (JObj d) /\ tokens (u "input_tokens") d i /\ tokens (u "output_tokens") d o) \/
     ((dget (u "usage") top = None \/ dget (u "usage") top = Some JNull) /\ i = 0%Z /\ o = 0%Z)).
(** The exceptions of the package. *)
Definition ai_error (e : exn) : Prop := In e [AIConfigurationError; AIProviderError; AIResponseError].

(** Histories of one provider in which no shutdown starts before the one before it has ended; calls go on meanwhile. *)
Inductive serial : list op -> Prop :=
  | se_nil : serial []
  | se_get l : serial l -> serial (Get :: l)
  | se_open n : serial (ShutdownBegins :: repeat Get n)
  | se_shut n l : serial l -> serial (ShutdownBegins :: repeat Get n ++ ShutdownEnds :: l).
