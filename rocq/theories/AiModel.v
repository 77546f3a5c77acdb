(** Model of lilya/contrib/ai: client.py, types.py, providers/base.py, providers/openai.py and providers/anthropic.py.
    JSON data are [jvalue]s of JsonModel.  The network is a parameter: what it answers is an argument. *)
From Coq Require Import QArith.
From Verif Require Import PyStr JsonModel SseModel.
Local Open Scope N_scope.

(** ** Values *)
(** exceptions.py:4-31, and the exceptions of Python the code does not turn into one of them. *)
Inductive exn := AIConfigurationError | AIProviderError | AIResponseError | AttributeError | TypeError | ValueError.
Inductive result (A : Type) := Fine (a : A) | Raises (e : exn).
Arguments Fine {A}. Arguments Raises {A}.
Definition bind {A B} (r : result A) (f : A -> result B) : result B := match r with Fine a => f a | Raises e => Raises e end.

(** A Python float: NaN, an infinity or a number. *)
Inductive float := NaN | Inf (negative : bool) | Num (q : Q).
Definition below (x : float) (q : Q) : bool :=
  match x with NaN => false | Inf n => n | Num p => negb (Qle_bool q p) end.
Definition within01 (x : float) : bool :=
  match x with Num p => Qle_bool 0 p && Qle_bool p 1 | _ => false end.

(** types.py:12-26 [ChatMessage]; [metadata] is not read by the code below. *)
Record message := mkMsg { m_role : str; m_content : str; m_name : option str; m_tool : option str }.
(** types.py:35-40 [ChatMessage.user]. *)
Definition user (content : str) : message := mkMsg (u "user") content None None.

(** types.py:57-71 [PromptRequest]. *)
Record request := mkReq {
  r_messages : list message; r_model : option str; r_system : option str; r_temperature : option float;
  r_max_tokens : option Z; r_top_p : option float; r_stop : list str; r_metadata : dict jvalue; r_extra : dict jvalue }.
(** types.py:73-84 [PromptRequest.__post_init__]. *)
Definition post_init (r : request) : result request :=
  match r_messages r with
  | [] => Raises AIConfigurationError
  | _ =>
      if match r_max_tokens r with Some n => (n <=? 0)%Z | None => false end then Raises AIConfigurationError
      else if match r_temperature r with Some t => below t 0 | None => false end then Raises AIConfigurationError
      else if match r_top_p r with Some t => negb (within01 t) | None => false end then Raises AIConfigurationError
      else Fine r
  end.
(** types.py:86-100 [with_system_prompt]. *)
Definition with_system_prompt (r : request) (s : option str) : result request :=
  post_init (mkReq (r_messages r) (r_model r) s (r_temperature r) (r_max_tokens r) (r_top_p r) (r_stop r) (r_metadata r) (r_extra r)).

(** [a or b] on optional texts. *)
Definition or_else (a b : option str) : option str := match a with Some (c :: s) => Some (c :: s) | _ => b end.
(** The arguments of [chat]. *)
Record options := mkOpt {
  o_model : option str; o_system : option str; o_temperature : option float; o_max_tokens : option Z; o_top_p : option float;
  o_stop : option (list str); o_metadata : option (dict jvalue); o_extra : option (dict jvalue) }.
(** client.py:19-38: the defaults of a client. *)
Record client := mkClient { c_model : option str; c_system : option str }.
(** [x or []], [x or {}]. *)
Definition or_nil {A} (o : option (list A)) : list A := match o with Some l => l | None => [] end.
(** client.py:168-203 [_build_request]. *)
Definition build_request (c : client) (messages : list message) (o : options) : result request :=
  match messages with
  | [] => Raises AIConfigurationError
  | _ =>
      match or_else (o_model o) (c_model c) with
      | None | Some [] => Raises AIConfigurationError
      | Some m =>
          post_init (mkReq messages (Some m) (or_else (o_system o) (c_system c)) (o_temperature o) (o_max_tokens o) (o_top_p o)
                       (or_nil (o_stop o)) (or_nil (o_metadata o)) (or_nil (o_extra o)))
      end
  end.
(** client.py:52-107 [prompt], [chat] and 109-166 [stream], [stream_chat]: [provider] is what [complete] or [stream] of the provider does;
    the first component lists the requests it is given. *)
Definition chat {R} (c : client) (provider : request -> result R) (messages : list message) (o : options) : list request * result R :=
  match build_request c messages o with
  | Fine r => ([r], provider r)
  | Raises e => ([], Raises e)
  end.
Definition prompt {R} (c : client) (provider : request -> result R) (text : str) (o : options) : list request * result R :=
  chat c provider [user text] o.

(** ** Requests on the wire *)
Section Wire.
(** How json.dumps writes a float, and [int] of a float; [None] is its ValueError or OverflowError. *)
Context (float_json : float -> jvalue) (trunc : str -> option Z).

Definition set_if {A} (k : str) (f : A -> jvalue) (o : option A) (d : dict jvalue) : dict jvalue :=
  match o with Some x => dset k (f x) d | None => d end.
(** A text that is set and not empty. *)
Definition text_set (o : option str) : option str := match o with Some (c :: s) => Some (c :: s) | _ => None end.
Definition nonempty {A} (l : list A) : option (list A) := match l with [] => None | _ => Some l end.

(** openai.py:105-123 [_serialize_messages]. *)
Definition openai_message (m : message) : jvalue :=
  JObj (set_if (u "tool_call_id") JStr (text_set (m_tool m))
          (set_if (u "name") JStr (text_set (m_name m)) [(u "role", JStr (m_role m)); (u "content", JStr (m_content m))])).
Definition openai_messages (messages : list message) (system : option str) : list jvalue :=
  match text_set system with
  | Some s => [JObj [(u "role", JStr (u "system")); (u "content", JStr s)]]
  | None => []
  end ++ map openai_message messages.
(** openai.py:79-103 [_build_payload]. *)
Definition openai_payload (r : request) (stream : bool) : result (dict jvalue) :=
  match text_set (r_model r) with
  | None => Raises AIConfigurationError
  | Some model =>
      let p := [(u "model", JStr model); (u "messages", JArr (openai_messages (r_messages r) (r_system r))); (u "stream", JBool stream)] in
      let p := set_if (u "temperature") float_json (r_temperature r) p in
      let p := set_if (u "max_tokens") JInt (r_max_tokens r) p in
      let p := set_if (u "top_p") float_json (r_top_p r) p in
      let p := set_if (u "stop") (fun l => JArr (map JStr l)) (nonempty (r_stop r)) p in
      let p := set_if (u "metadata") JObj (nonempty (r_metadata r)) p in
      Fine (dupdate p (r_extra r))
  end.

(** anthropic.py:100-122 [_split_system_messages]. *)
Definition anthropic_message (m : message) : jvalue :=
  JObj (set_if (u "name") JStr (text_set (m_name m)) [(u "role", JStr (m_role m)); (u "content", JStr (m_content m))]).
Fixpoint split_loop (messages : list message) (parts : list str) (serialized : list jvalue) : list str * list jvalue :=
  match messages with
  | [] => (parts, serialized)
  | m :: rest =>
      if seqb (m_role m) (u "system") then split_loop rest (parts ++ [m_content m]) serialized
      else split_loop rest parts (serialized ++ [anthropic_message m])
  end.
Definition not_empty (s : str) : bool := match s with [] => false | _ => true end.
Definition split_system (messages : list message) (system : option str) : option str * list jvalue :=
  let '(parts, serialized) := split_loop messages (match text_set system with Some s => [s] | None => [] end) [] in
  (text_set (Some (join [10; 10] (filter not_empty parts))), serialized).
(** anthropic.py:69-98 [_build_payload]; [default_max] is the configuration's. *)
Definition anthropic_payload (default_max : Z) (r : request) (stream : bool) : result (dict jvalue) :=
  match text_set (r_model r) with
  | None => Raises AIConfigurationError
  | Some model =>
      let '(system, messages) := split_system (r_messages r) (r_system r) in
      let max := match r_max_tokens r with Some n => if (n =? 0)%Z then default_max else n | None => default_max end in
      let p := [(u "model", JStr model); (u "messages", JArr messages); (u "max_tokens", JInt max); (u "stream", JBool stream)] in
      let p := set_if (u "system") JStr system p in
      let p := set_if (u "temperature") float_json (r_temperature r) p in
      let p := set_if (u "top_p") float_json (r_top_p r) p in
      let p := set_if (u "stop_sequences") (fun l => JArr (map JStr l)) (nonempty (r_stop r)) p in
      let p := set_if (u "metadata") JObj (nonempty (r_metadata r)) p in
      Fine (dupdate p (r_extra r))
  end.

(** ** Python on JSON data *)
(** The truth of a value.  Simplified: a float is false when its literal has no digit but 0 before the exponent. *)
Fixpoint nonzero (t : str) : bool :=
  match t with
  | [] => false
  | c :: r => if (c =? 101) || (c =? 69) then false else ((49 <=? c) && (c <=? 57)) || (c =? 78) || (c =? 73) || nonzero r
  end.
Definition truthy (v : jvalue) : bool :=
  match v with
  | JNull => false
  | JBool b => b
  | JInt z => negb (z =? 0)%Z
  | JFloat t => nonzero t
  | JStr s => not_empty s
  | JArr l => match l with [] => false | _ => true end
  | JObj l => match l with [] => false | _ => true end
  end.
Definition orv (v w : jvalue) : jvalue := if truthy v then v else w.
(** [v.get(k, default)]: only objects have it. *)
Definition get (k : str) (default v : jvalue) : result jvalue :=
  match v with
  | JObj d => Fine (match dget k d with Some x => x | None => default end)
  | _ => Raises AttributeError
  end.
(** [v[k]] with a text, and [v[0]]: [None] for a KeyError, an IndexError or a TypeError. *)
Definition item (k : str) (v : jvalue) : option jvalue := match v with JObj d => dget k d | _ => None end.
Definition first (v : jvalue) : option jvalue :=
  match v with
  | JArr (x :: _) => Some x
  | JStr (c :: _) => Some (JStr [c])
  | _ => None
  end.
(** [int(v)]. *)
Definition to_int (v : jvalue) : result Z :=
  match v with
  | JInt z => Fine z
  | JBool b => Fine (if b then 1%Z else 0%Z)
  | JFloat t => match trunc t with Some z => Fine z | None => Raises ValueError end
  | JStr s => match int_parse s with Some z => Fine z | None => Raises ValueError end
  | _ => Raises TypeError
  end.
Definition int_or_zero (k : str) (default : jvalue) (v : jvalue) : result Z :=
  bind (get k default v) (fun x => to_int (orv x (JInt 0))).

(** types.py:103-134 [AIUsage], [from_mapping] with its default keys. *)
Record usage := mkUsage { us_input : Z; us_output : Z; us_total : Z }.
Definition from_mapping (v : jvalue) : result (option usage) :=
  if truthy v then
    bind (int_or_zero (u "prompt_tokens") (JInt 0) v) (fun i =>
    bind (int_or_zero (u "completion_tokens") (JInt 0) v) (fun o =>
    bind (int_or_zero (u "total_tokens") (JInt (i + o)) v) (fun t => Fine (Some (mkUsage i o t)))))
  else Fine None.
(** types.py:151-162 [AIResponse]; a field that is not set is [JNull]. *)
Record response := mkRes { re_text : jvalue; re_model : jvalue; re_provider : str; re_finish : jvalue; re_usage : option usage; re_raw : jvalue }.
(** types.py:137-148 [AIResponseChunk]. *)
Record chunk := mkChunk { ch_text : jvalue; ch_delta : jvalue; ch_model : jvalue; ch_provider : str; ch_finish : jvalue; ch_raw : jvalue }.

(** openai.py:125-144 [_parse_response]. *)
Definition openai_response (name : str) (data : jvalue) : result response :=
  match match item (u "choices") data with Some l => first l | None => None end with
  | None => Raises AIResponseError
  | Some choice =>
      match item (u "message") choice with
      | None => Raises AIResponseError
      | Some message =>
          bind (get (u "content") JNull message) (fun content =>
          bind (get (u "usage") JNull data) (fun usage_data =>
          bind (from_mapping usage_data) (fun usage =>
          bind (get (u "model") JNull data) (fun model =>
          bind (get (u "finish_reason") JNull choice) (fun finish =>
          Fine (mkRes (orv content (JStr [])) model name finish usage data))))))
      end
  end.
(** openai.py:146-169 [_parse_stream_event]. *)
Definition openai_event (name : str) (data : jvalue) : result (option chunk) :=
  match match item (u "choices") data with Some l => first l | None => None end with
  | None => Raises AIResponseError
  | Some choice =>
      bind (get (u "delta") JNull choice) (fun d =>
      bind (get (u "content") JNull (orv d (JObj []))) (fun c =>
      bind (get (u "finish_reason") JNull choice) (fun finish =>
      let delta := orv c (JStr []) in
      if negb (truthy delta) && negb (truthy finish) then Fine None
      else bind (get (u "model") JNull data) (fun model => Fine (Some (mkChunk delta delta model name finish data))))))
  end.

(** anthropic.py:128-132: [JStr] of the texts of the text blocks; [None] when one of them is not a text, a TypeError of [join].
    The keys of an object and the characters of a text are blocks that are not objects. *)
Definition block_text (b : jvalue) : list jvalue :=
  match b with
  | JObj d =>
      if match dget (u "type") d with Some (JStr t) => seqb t (u "text") | _ => false end
      then [match dget (u "text") d with Some x => x | None => JStr [] end] else []
  | _ => []
  end.
Fixpoint join_texts (l : list jvalue) : option str :=
  match l with
  | [] => Some []
  | JStr s :: r => match join_texts r with Some t => Some (s ++ t) | None => None end
  | _ :: _ => None
  end.
Definition blocks (content : jvalue) : result (list jvalue) :=
  match content with
  | JArr l => Fine (flat_map block_text l)
  | JObj _ | JStr _ => Fine []
  | _ => Raises TypeError
  end.
(** anthropic.py:124-151 [_parse_response]. *)
Definition anthropic_response (data : jvalue) : result response :=
  bind (get (u "content") JNull data) (fun c =>
  let content := orv c (JArr []) in
  bind (blocks content) (fun parts =>
  if negb (truthy content) && negb (match parts with [] => false | _ => true end) then Raises AIResponseError
  else
    bind (get (u "usage") JNull data) (fun ud =>
    let ud := orv ud (JObj []) in
    bind (int_or_zero (u "input_tokens") (JInt 0) ud) (fun i =>
    bind (int_or_zero (u "output_tokens") (JInt 0) ud) (fun o =>
    match join_texts parts with
    | None => Raises TypeError
    | Some text =>
        bind (get (u "model") JNull data) (fun model =>
        bind (get (u "stop_reason") JNull data) (fun finish =>
        Fine (mkRes (JStr text) model (u "anthropic") finish (Some (mkUsage i o (i + o)%Z)) data)))
    end))))).
(** anthropic.py:153-181 [_parse_stream_event]. *)
Definition is_type (t : str) (v : jvalue) : bool := match v with JStr s => seqb s t | _ => false end.
Definition anthropic_event (data : jvalue) : result (option chunk) :=
  bind (get (u "type") JNull data) (fun ty =>
  if is_type (u "content_block_delta") ty then
    bind (get (u "delta") JNull data) (fun d =>
    bind (get (u "text") JNull (orv d (JObj []))) (fun t =>
    let delta := orv t (JStr []) in
    if negb (truthy delta) then Fine None
    else bind (get (u "model") JNull data) (fun model => Fine (Some (mkChunk delta delta model (u "anthropic") JNull data)))))
  else if is_type (u "message_stop") ty then
    bind (get (u "model") JNull data) (fun model =>
    bind (get (u "stop_reason") JNull data) (fun finish =>
    Fine (Some (mkChunk (JStr []) (JStr []) model (u "anthropic") finish data))))
  else Fine None).

(** ** The event stream *)
(** base.py:109-125 [_iter_sse_data] over the lines that arrive; [ended] is false when the connection fails after them. *)
Fixpoint iter_sse (buffer : list str) (lines : list str) (ended : bool) : list str :=
  match lines with
  | [] => if ended then match buffer with [] => [] | _ => [join [10] buffer] end else []
  | line :: rest =>
      match line with
      | [] => match buffer with [] => iter_sse [] rest ended | _ => join [10] buffer :: iter_sse [] rest ended end
      | _ =>
          if prefixb (u "data:") line then iter_sse (buffer ++ [lstrip_by is_space (skipn 5 line)]) rest ended
          else iter_sse buffer rest ended
      end
  end.
(** base.py:127-138 [_decode_json]. *)
Definition decode_json (payload : str) : result jvalue :=
  match loads payload with
  | Some (JObj d) => Fine (JObj d)
  | _ => Raises AIProviderError
  end.
(** What the network does with a request: no answer or an error status; for a plain request the body as JSON ([None]: it is not JSON), for
    a streamed one the lines of the body, as [aiter_lines] of httpx gives them, and whether it is complete. *)
Inductive answer (B : Type) := Failed | Answered (b : B).
Arguments Failed {B}. Arguments Answered {B}.
(** openai.py:63-77, anthropic.py:55-67: the loop; [done] is what ends it, if there is such an event.  An exception in the loop becomes
    an AIProviderError after the chunks that have been yielded. *)
Fixpoint consume (done : option str) (parse : jvalue -> result (option chunk)) (events : list str) (ended : bool) : list chunk * option exn :=
  match events with
  | [] => ([], if ended then None else Some AIProviderError)
  | e :: rest =>
      if match done with Some d => seqb e d | None => false end then ([], None)
      else match bind (decode_json e) parse with
           | Raises _ => ([], Some AIProviderError)
           | Fine None => consume done parse rest ended
           | Fine (Some c) => let '(cs, x) := consume done parse rest ended in (c :: cs, x)
           end
  end.
Definition run_stream (done : option str) (parse : jvalue -> result (option chunk)) (payload : result (dict jvalue))
    (a : answer (list str * bool)) : list (dict jvalue) * (list chunk * option exn) :=
  match payload with
  | Raises e => ([], ([], Some e))
  | Fine p =>
      ([p], match a with
            | Failed => ([], Some AIProviderError)
            | Answered (lines, ended) => consume done parse (iter_sse [] lines ended) ended
            end)
  end.
(** openai.py:56-77 and anthropic.py:48-67 [stream]: what is posted, the chunks and the exception after them. *)
Definition openai_stream (name : str) (r : request) (a : answer (list str * bool)) :=
  run_stream (Some (u "[DONE]")) (openai_event name) (openai_payload r true) a.
Definition anthropic_stream (default_max : Z) (r : request) (a : answer (list str * bool)) :=
  run_stream None anthropic_event (anthropic_payload default_max r true) a.
(** openai.py:40-54 and anthropic.py:32-46 [complete]. *)
Definition run_complete (parse : jvalue -> result response) (payload : result (dict jvalue)) (a : answer (option jvalue)) :
    list (dict jvalue) * result response :=
  match payload with
  | Raises e => ([], Raises e)
  | Fine p =>
      ([p], match a with
            | Failed => Raises AIProviderError
            | Answered None => Raises ValueError
            | Answered (Some data) => parse data
            end)
  end.
Definition openai_complete (name : str) (r : request) (a : answer (option jvalue)) :=
  run_complete (openai_response name) (openai_payload r false) a.
Definition anthropic_complete (default_max : Z) (r : request) (a : answer (option jvalue)) :=
  run_complete anthropic_response (anthropic_payload default_max r false) a.
End Wire.
Arguments Failed {B}. Arguments Answered {B}.

(** ** The HTTP client of a provider *)
(** base.py:65-107: [_client], numbered in the order they are built; the clients that are open; the shutdowns that wait in [aclose].
    [aclose] of httpx marks the client closed before it waits. *)
Record pool := mkPool { p_client : option nat; p_built : nat; p_open : list nat; p_waiting : nat }.
Definition fresh : pool := mkPool None 0 [] 0.
Inductive op :=
  | Get             (** base.py:73-78 [startup], 101-107 [_get_client]: no wait between the test and the assignment *)
  | ShutdownBegins  (** base.py:80-85, until the wait *)
  | ShutdownEnds.   (** base.py:86 *)
Definition pool_step (s : pool) (o : op) : pool :=
  match o with
  | Get =>
      match p_client s with
      | Some _ => s
      | None => mkPool (Some (p_built s)) (S (p_built s)) (p_built s :: p_open s) (p_waiting s)
      end
  | ShutdownBegins =>
      match p_client s with
      | Some c => mkPool (Some c) (p_built s) (filter (fun d => negb (Nat.eqb c d)) (p_open s)) (S (p_waiting s))
      | None => s
      end
  | ShutdownEnds =>
      match p_waiting s with
      | O => s
      | S n => mkPool None (p_built s) (p_open s) n
      end
  end.
Definition pool_run (l : list op) : pool := fold_left pool_step l fresh.
