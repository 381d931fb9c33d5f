# Formal model of PySwitch — design

Source: `/repo` (Tunetown/PySwitch, pinned, version 2.4.9). Paths below are relative to
`/repo/content/lib/pyswitch` unless they start with `web/`.

## 1. Method

* Shallow, executable Gallina models, one definition per Python function, branch by branch.
  Python exceptions are explicit values (`Raise`, or a flag beside the state), never silently totalised.
* A stateful class is a record plus a `step : state -> op -> state * list event` function. The API calls
  are the operations, the observable effects (MIDI messages handed to a device, listener calls, LED writes,
  display texts) are the events. A history is a list of operations of any length, run from the initial state.
* Time is an explicit argument: every operation that reads the clock takes the reading `now : Z` (milliseconds,
  `misc.py:19-20`). Nothing is assumed about it unless a theorem says so (monotonicity is a visible hypothesis).
* Numbers are unbounded `Z`; Python ints are unbounded. True division followed by `int()` on the small
  non-negative integers used here is `Z.quot`/`Z.div`; where the code computes with fractional floats
  (LED brightness, pedal factors, strobe) the model uses exact rationals (`Q`) and says so; the morph colours are proved
  for every monotone rounding function.
* Loops over lists are folds / structural recursion. `while` loops are fuelled, with an explicit out-of-fuel value
  and a theorem that the fuel given by the model always suffices (or a `_refuted` theorem with the diverging input).
* Layout: `theories/Model/*.v` (definitions only, each citing file and lines), `theories/Spec/*.v` (small independent
  specifications, the vocabulary of the theorems), `theories/Proofs/*.v` (lemmas), `theories/Props/*.v` (the property
  theorems, each followed by `Print Assumptions` and an `Example` of a concrete instance meeting its hypotheses).
* A property the faithful model violates gets a `_refuted` theorem with a concrete witness (a finding, section 6),
  and the strongest true part is proved under the suffix `_partial`. A `_refuted` theorem beside a property marked
  `proved` shows that the claim cannot be extended beyond its stated conditions.

## 2. Properties: what is modelled, how it is proved

| Id | Model | Approach |
|----|-------|----------|
| C01 C02 C03 C04 | `Model/Midi.v`, `Model/Mapping.v` | arithmetic round trip; match relation as an inductive specification, `iff`; two-part stream refines a "last unconsumed CC" description of the whole history; registry invariant by induction over `get` calls |
| C05 – C11 | `Model/Client.v` | labelled transition system over client operations; invariants by induction over histories; each parameter's requests are accepted by a small automaton over the event trace (exactly once, never early); `_refuted` for dependent mappings with several listeners |
| C12 C13 | `Model/Client.v` | direct characterisation of the event list |
| C14 C15 | `Model/Protocol.v` | exact step theorems and trace invariants by induction over schedules with monotone clock |
| C16 C17 C18 | `Model/Routing.v` | devices are streams (unbounded lists of reads); refinement to filtered stream prefixes; `_refuted` for shared sources |
| C19 C20 C21 | `Model/Controller.v` | loop = recursion bounded by the limit; conservation theorem over any number of ticks |
| C22 | `Model/Period.v` | characterisation over call histories |
| C23 C24 | `Model/PushButton.v` | refinement of a mode-by-mode specification over histories |
| C25 – C28 | `Model/Switch.v` | trace refinement against an edge/press specification; `_refuted` for holdRepeat and override leftovers |
| C29 C30 C59 | `Model/Leds.v`, `Model/Controller.v` | list-partition theorem; frame properties |
| C31 C32 | `Model/BinaryCb.v` | per step and history refinement |
| C33 C34 C35 | `Model/Encoder.v` | history invariants; `_refuted` for lost steps |
| C36 C37 C38 | `Model/Analog.v` | rational arithmetic; history invariants |
| C39 – C41 | `Model/Local.v`, `Model/Pager.v` | history invariants, modular arithmetic |
| C42 – C45 C60 C61 | `Model/Rig.v` | a model of the device (current rig, preselected bank) composed with the switches; arithmetic plus history pairing |
| C46 | `Model/Effects.v` | interval case split over all integers; finite table |
| C47 | `Model/Preview.v` | history refinement |
| C48 | `Model/Strobe.v` | rational arithmetic, loop termination |
| C49 – C51 | `Model/Codec.v` | byte level model of encoder and decoder; induction over message lists and chunkings; `_refuted` for split SysEx |
| C52 C53 | `Model/Layout.v`, `Model/Tuner.v` | point-set extensionality of rectangles; arithmetic |
| C54 C55 C57 | `Model/Measure.v`, `Model/Explore.v`, `Model/Morph.v` | histories and arithmetic |
| C56 | `Model/System.v` | composition of switches, actions, callbacks and client into one transition system; the user-level statement over histories |
| C58 C62 | `Model/Client.v` | conditions on configuration and calls only; invariant that no reachable state raises; every event on the wire is a configured message |
| C63 | `Model/KemperMappings.v` | all mapping functions as a table; every pair of parameters decided by computation, lifted to all messages by the equivalence of addresses; registry invariant; instantiates C58 |
| C64 | `Model/TunerMode.v` on top of `Switch.v` | mode, foot and pending press defined on the history; invariants tie override, pushed state and flag to them; the condition `calm` excludes the hold time findings |
| C65 | `Model/BiClient.v`: the wiring of `Client.v` and `Protocol.v` | two refinements: the product runs project to runs of the client and of the protocol; then C05-C15 and C58 carry over; liveness by induction over the silent part |
| C66 | `Model/Label.v`, `Spec/Label.v` | the calls of the display library are folded into a screen; invariant that the screen agrees with the label; text as the last write of the history; contrast by linear arithmetic |
| C67 | `Model/Label.v` on top of the label of C66 | expected text defined on the history (last values, preselection); invariants by induction over histories; injectivity of decimal numerals for uniqueness; `_refuted` for the end of a preselection |
| C68 | `Model/Editor.v`: expressions, modules, the data the editor works on, reading and writing | reading and writing are inverse on tidy files (induction on fuel and expressions); frame and value theorems for any data by induction over the data; `_refuted` files that change |
| C69 | `Model/Imports.v`: files as trees of scopes, the two transformers, any visiting order (a permutation) | a permutation measure for the added lines, invariants of the scan over any order; `_refuted` for functions and own definitions |
| C70 | `Model/Rig.v` together with a device specified in `Spec/RigMorph.v` | a simulation: the remembered state equals the device's along all common histories |
| C71 | `Model/Screens.v` (element trees, their initialised flags, the current screen) | the flags are exactly the elements of the screens shown so far (an invariant over histories), by induction on the trees |
| C72 | `Model/Tempo.v` (the callback with the values of its mappings) | invariants over histories; the announcements are a function of the values seen, specified on the list of draws |
| C73 | `Model/EffectButton.v` (the action in latch mode, its enable callback and the callback of `Model/BinaryCb.v`) | an invariant of visible buttons (state = displayed state), counted over histories |
| C74 | `Model/RigDisplay.v` (displays of the switches of `Model/Rig.v`) | the text is compared with the rig C44 proves for the press; bank select: an invariant (last shown = shown now) over redraws |
| C75 | `Model/BankEncoder.v` (the encoder of `Model/Encoder.v` and the switches of `Model/Rig.v` with their two parameters) | invariants over logs (what happened and what was sent), against the device of C42 |
| C76 | `Model/Emulator.v` (the read function and the queue, with MIDI.receive of `Model/Codec.v` and the receive loop) | simulation: buffer and queue always hold whole messages; refinement to a queue of messages while everything fits |
| C77 | `Model/Runner.v` (calls as small programs interleaved at their awaits, timers per runner) | invariant over all schedules with one call at a time; progress by a measure on the steps left |
| C78 | `Model/VirtualProtocol.v` (the JavaScript protocol, and its loop with `Model/Protocol.v` over two queues, with times) | an invariant with one phase per situation (connected; beacon arrived; beacon on its way; first beacon due; ...), each with its deadline; every operation keeps the phase or moves on, and no phase but the connected one outlives its deadline |
| C79 | `Model/VirtualParams.v` (the JavaScript parameter store with keys, callbacks and the parameters of the setup; the firmware's mappings are those of `Model/KemperMappings.v`) | invariant: the parameters are those of the setup plus numbers created on demand, with different ids; frame lemmas for every callback; a memory fold as the specification; the firmware's reading of all messages by `parse_against` |
| C80 | `Model/VirtualParams.v` composed with `Model/Rig.v` and the two-part mapping of `Model/Mapping.v` | simulation of the virtual device by the documented device (`Spec/Rig.v` extended by bank steps and on-screen changes); an invariant of the closed loop (device simulation, the mapping's value, the switches' pending releases) |
| C81 | `Model/Bridge.v`: bit regrouping, number format, UTF-8 encoder and decoder of the platform, all handlers of the bridge | round trips by induction over the bit stream and the code points; an invariant over all histories for the data bytes |
| C82 | `Model/Bridge.v`: CRC, framing, receive | linearity of the CRC step over GF(2), injectivity of zero bytes, a kernel-evaluated table of the 2^14 two byte error patterns lifted to all positions and lengths |
| C83 | `Model/Bridge.v` twice, `Spec/Bridge.v` the network: the set of all messages sent so far | global invariant with a ghost list of the transmissions started by each side: every message in the network, every entry of the maps and every report belongs to one of them; ids are unique below 2^24 transmissions |
| C84 | `Model/Bridge.v` twice, `Spec/Bridge.v` FIFO network | per transmission a phase (five cases: entry at the sender, messages under way, entry at the receiver, acknowledgements under way, counts), invariant with a frame lemma for untouched transmissions; counting of messages by class |
| C85 | `Model/Device.v` on top of `Model/Bridge.v`, `Spec/Device.v` | transmissions are completed in the order of their starts (`Proofs/BridgeOrder.v`), then an invariant relating the calls to the transmissions of both sides and the requests under way, over the reliable network of C84 |
| C86 | `Model/Bridge.v`, `Spec/Bridge.v` (`active`, `begins`, `within`) | an invariant over the unreliable network: the time stamp of each transmission held is the time of a message sent for it (`Proofs/BridgeForget.v`, `Proofs/BridgeKept.v`) |
| C87 | `Model/Storage.v`, `Spec/Storage.v` | algebra of the stored arrays (get after set and delete), prefixes of the storage keys are told apart, invariant that names are unique, induction over histories |
| C88 | `Model/Storage.v` (with the firmware's defaults), `Spec/Storage.v` | invariant on the kept data (unique names, right types), rendering replaces every token of the template exactly once, comparison of both lists of defaults |
| C89 | `Model/Checks.v`, `Spec/Checks.v` (pages shown by the pagers, actions enabled) | the tree has exactly the pages of the usages, merging keeps who is warned about; all usages left by the filter for a page can be enabled together with the one which caused the page to be checked |
| C90 | `Model/Session.v` (objects with the code, saves under way), `Spec/Session.v` | invariant: saves under way have read the current code, an unmarked configuration is in the log of what the places had; induction over histories |
| C91 | `Model/Edit.v` (on the data of `Model/Editor.v`), `Spec/Edit.v` (the lists before and after, `editable`, `changed`) | loaded data related to the code it was parsed from; each change is followed on both sides; variables are counted to show that no old value is written after the new one |
| C92 | `Model/Displays.v`, `Spec/Displays.v` (parts of a tree, one list of children replaced, one element exchanged, nearest number) | invariant over all sequences of operations (different objects, labels without children, elements in use are there and keep their names), trees compared by their rows |
| C93 | `Model/Properties.v`, `Spec/Properties.v` (value of an argument in a call, values an input can show, same value up to the kind of quotes) | invariant over the arguments set so far (each input shows what has been set, selections of pages are up to date); edits keep a stable form |
| C94 | `Model/Queue.v`, `Spec/Queue.v` (log of what begins, is shown and ends; executed one after the other; numbered requests) | invariant with the four phases of the queue over all events; induction on the waiting requests for completion |
| C95 | `Model/Url.v` (encodeURI, decodeURI, the router, the routes), `Spec/Url.v` (characters of a name, last component) | encode and decode are inverse by induction; special characters survive encoding; the first route which matches |
| C96 | `Model/Scan.v`, `Spec/Scan.v` (in time, first, nobody) | invariant (open attempts are those in the map, without a timeout so far) over all events; three kinds of states: pending, found, failed |
| C97 | `Model/Pages.v`, `Spec/Pages.v` (effect of each event on the pages, replaced, color_value) | history: captured IDs are in step with the shown ones until an ID is edited; parseInt of a printed number; pigeonhole for names; all bytes for color components, symbolic for the text around them |
| C98 | `Model/Boost.v` (button, callback, Kemper and answers on their way in one system), `Spec/Boost.v` | invariant over all histories: the remembered volume is the last answer below the boost, the shown state fits to the last answer unless other answers are on their way; second invariant while nobody else changes the volume |
| C99 | `Model/Monitor.v`, `Spec/Monitor.v` (concerns, complete MIDI messages) | invariant over all histories (stored and shown list agree, names fit to bytes, no duplicates); the list of ignored messages is characterized by the history; complete MIDI messages are prefix free |
| C100 | `Model/Tabs.v`, `Spec/Tabs.v` (which tab is seen, which are present, which has been seen last) | invariant over all histories (exactly the active tab is shown, it is listed, its name is remembered; if none is active, the remembered one is missing) |
| C101 | `Model/Popup.v`, `Spec/Popup.v` (seen, what trying to close a popup calls, settled histories, one popup at a time) | invariant over all settled histories (the handlers are those of the open popups, without repetition), refutations by concrete histories |
| C102 | `Model/Browser.v`, `Spec/Browser.v` (sort order, places in trees, ways of texts) | induction over insertion sort, trees and paths; invariant over histories (what is shown exists, cannot be called and is remembered) |
| C103 | `Model/Custom.v` on top of `Model/Switch.v`, `Spec/Custom.v` (what is sent at each edge, complete presses) | induction over all histories, refutations by concrete histories |
| C104 | `Model/Inputs.v` on top of `Model/Switch.v`, `Spec/Inputs.v` (what the mouse holds, where fingers are, clicks, distance dragged) | invariants over all histories, composed with the theorem on edges of switches (C25) |
| C105 | `Model/CodeTab.v`, `Spec/CodeTab.v` (expected text, unapplied changes) | mark and code: induction over all histories; contents: invariant over histories without events before the timeouts |
| C106 | `Model/Values.v` on `Model/Encoder.v`, `Spec/Values.v` (reading a text, the level of a volume) | invariant over all histories of the encoder; rational arithmetic for both branches of the volume and their boundary |
| C107 | `Model/Wrap.v`, `Spec/Wrap.v` (the words of a text as a relation) | invariant of the loop over the words |
| C108 | `Model/Settings.v`, `Spec/Settings.v` (last choices) | induction over the changes; decimal numbers are read back by both sides |
| C109 | `Model/Startup.v`, `Spec/Startup.v` (files, order) | induction over the steps with an arbitrary predicate of failing steps |
| C110 | `Model/Notices.v`, `Spec/Notices.v` (which messages have to be seen) | invariant on numbers of rows; the life of a row by induction over the later events |
| C111 | `Model/Memory.v`, `Spec/Memory.v` (sizes as texts, sums) | induction over the units and over the calls |
| C112 | `Model/Traffic.v`, `Spec/Traffic.v` (messages of a history, rates) | induction over the events |
| C113 | `Model/Names.v`, `Spec/Names.v` (what a call selects) | templates as lists of texts and tokens; replacing commutes with printing; display names can be turned back |
| C114 | `Model/Channels.v`, `Spec/Channels.v` (channels from 1 to 16, last texts) | induction over histories; decimal numbers are read back; bytes as sent by the MIDI library (Model/Codec.v) |
| C115 | `Model/Elements.v`, `Spec/Elements.v` (last texts, untouched arguments) | induction over the changes; the two tables of defaults agree |
| C116 | `Model/Fade.v`, `Spec/Fade.v` (fade in closed form) | induction over histories and updates; rounding of rational numbers |
| C117 | `Model/Offer.v`, `Spec/Offer.v` (inductive relation: what is at which path of a tree) | induction over trees with nested lists; joining names without slashes is injective |
| C118 | `Model/Choices.v`, `Spec/Choices.v` (inductive: calls of a mapping) | permutation and order of insertion sort, injectivity of decimals and of calls; counterexample for ranges of more than 101 numbers |
| C119 | `Model/Connect.v`, `Spec/Connect.v` (what a name means, which messages arrive) | invariant on listeners, timers and numbers of wrappers; induction over later events; counterexamples |
| C120 | `Model/PageColors.v`, `Spec/PageColors.v` (pages in the order in which they came) | invariant: the color of the i-th new page is i mod 5; case analysis for the icons; counterexample for pages with the same text |
| C121 | `Model/Detect.v`, `Spec/Detect.v` (bytes of a message), with the firmware of `Model/Mapping.v` and `Model/KemperMappings.v` | lists of bytes, splitting at the ends; equivalence of both parsers |
| C122 | `Model/CallbackParams.v` (types, defaults, conversion, arguments), `Spec/CallbackParams.v` (last choice and its code) | induction over the changes; numbers by what parseInt makes of a quote |
| C123 | `Model/Providers.v` (contents of the lists, the stored list of ports; pairs of ports of `Model/Scan.v`), `Spec/Providers.v` (available actions) | membership of filtered lists; induction over the openings |
| C124 | `Model/LabelCallback.v` (options, definition, choices, with the arguments of `Model/Elements.v` and the defaults of `Model/CallbackParams.v`), `Spec/LabelCallback.v` (last choice, needed arguments) | induction over the choices |
| C125 | `Model/Hardware.v` (device of a text, inputs of a module, the modules of the three devices), `Spec/Hardware.v` (texts in texts, inputs of a module) | induction over texts and modules; the devices by computation |

## 3. Status

| Id | Status | Property | Theorems (without the id prefix) |
|----|--------|----------|------|
| C01 | proved | 14-bit SysEx parameter values survive set and parse | `round_trip`, `range` |
| C02 | proved | A message changes a parameter only when it is addressed to it | `addressed_only`, `value_unique`, `no_response`, `truncated_message_refuted` |
| C03 | proved | Rig id is assembled from bank-select then program-change only | `two_part`, `total` |
| C04 | proved | Mappings are unique per name | `unique_per_name`, `first_request_creates`, `never_changed`, `kind_by_name_refuted` |
| C05 | proved | At most one outstanding request per parameter | `one_request` |
| C06 | proved | Every asker is answered or told about termination, exactly once | `life_of_requests`, `enlisted`, `told_exactly_once`, `answer_is_told`, `only_answers_are_told` |
| C07 | proved | A request message is sent once per outstanding request | `sent_iff_idle`, `sent_count` |
| C08 | proved | Requests time out, but never early | `never_early`, `terminated_is_timeout`, `terminated_at_poll`, `bounded`, `receive_ends` |
| C09 | proved | Permanent registrations never disappear | `registered`, `forever`, `delivery`, `delivery_two_part` |
| C10 | proved | Foreign messages have no effect on the client | `foreign_message`, `empty_poll` |
| C11 | partial | Dependent parameters are requested when their dependency changes | `asks_dependency`, `when_changed`, `only_when_changed`, `every_listener_refuted`, `second_ask_refuted` |
| C12 | proved | Setting a parameter feeds back immediately and sends once | `feedback`, `no_feedback`, `unregistered_refuted` |
| C13 | proved | Loss of connection is signalled to every bidirectional listener | `connection_lost` |
| C14 | proved | Bidirectional protocol timing | `update_exact`, `receive_exact`, `initial_beacons_spaced`, `keepalive_spaced`, `keepalive_only_connected`, `initial_only_disconnected`, `lost_never_early`, `established_after_beacon`, `lost_notification` |
| C15 | proved | Beacon content | `beacon_content` |
| C16 | proved | Outgoing messages reach exactly the routed targets | `send_exact` |
| C17 | proved | Incoming messages are forwarded once and in order | `poll_exact`, `total`, `streams`, `forwarded_once`, `each_source_once_per_poll`, `external_exact`, `later_sources_starve` |
| C18 | partial | A device routed both externally and to the application | `shared_source_refuted`, `shared_source_partial` |
| C19 | proved | Incoming traffic is processed in bounded bursts, losing nothing | `pass_exact`, `nothing_lost` |
| C20 | proved | Periodic updates | `tick_exact`, `updates_exact`, `registered_once`, `updates_apart` |
| C21 | proved | Startup drains the input buffers | `drains`, `returns_iff` |
| C22 | proved | Period counters fire once per elapsed interval | `expiry_exact`, `expiries_apart` |
| C23 | proved | Push button modes | `modes`, `latch_parity`, `hold_momentary`, `unpaired_release_refuted` |
| C24 | proved | A state command is sent exactly when the user changes the state | `commands` |
| C25 | proved | Plain switches: one push and one release per press | `edges`, `alternate`, `paired_release_refuted` |
| C26 | proved | Short press or hold, never both | `press`, `while_held`, `idle` |
| C27 | partial | Repeating hold actions | `hold_clicks_apart`, `exclusive`, `press_partial`, `independent_refuted`, `spurious_hold_refuted` |
| C28 | partial | Overriding a switch | `declined_partial`, `never_armed`, `accepting_transparent`, `armed_hold_refuted`, `leftover_hold_refuted`, `unpaired_refuted` |
| C29 | proved | LEDs of a switch are shared without overlap | `partition`, `one_owner`, `shares`, `others_none`, `total` |
| C30 | proved | Setting an action's colour or brightness touches only its own LEDs | `color`, `color_frame`, `color_per_led`, `color_middle`, `no_leds`, `brightness`, `range`, `wrong_length_raises` |
| C31 | proved | The displayed state follows the device | `state`, `silent`, `displayed`, `ignored_command_refuted`, `effect_slot_refuted`, `effect_slot`, `effect_texts`, `effect_text_current`, `effect_text_unknown_refuted` |
| C32 | partial | Automatic off value restores what was there before | `auto_off`, `auto_off_list`, `remembered_determined`, `enable_blocked_refuted`, `no_state_change_refuted` |
| C33 | proved | Encoder moves the parameter by the turned amount within limits | `sends`, `still_silent`, `bank_announced`, `never_raises`, `bank_unknown_refuted` |
| C34 | partial | Encoder preselection sends nothing until accepted | `only_accept_sends`, `accept_in_range`, `accept_once`, `accept_value`, `button`, `button_shared_refuted`, `cancel_unknown_refuted` |
| C35 | partial | No encoder step is lost | `step_counts_partial`, `minus_one_refuted`, `device_change_refuted`, `first_preselection_refuted`, `value_minus_one_refuted` |
| C36 | proved | Pedal scaling | `in_range`, `zero_below_threshold`, `full_travel`, `monotone`, `poll_exact`, `never_raises`, `full_travel_refuted`, `raises_refuted` |
| C37 | proved | Pedal traffic is limited | `sends_differ`, `sends_spaced`, `quiet_until_window` |
| C38 | proved | Pedal auto calibration | `calibrated`, `window_contains`, `window_grows`, `ends`, `monotone` |
| C39 | proved | Parameter up/down stays in range | `push`, `current_value`, `in_range`, `default_maximum`, `repeat_spaced`, `repeats`, `release_stops`, `no_repeat`, `display`, `display_refuted`, `held_without_report_refuted` |
| C40 | proved | Rotating messages | `trace`, `presses`, `boomerang`, `boomerang_leds` |
| C41 | partial | Paging | `never_raises`, `current`, `rotation`, `direct`, `proxy`, `unknown_proxy`, `enabled`, `displays`, `own_led`, `zero_page_refuted`, `unknown_page_refuted` |
| C42 | proved | Rig up/down | `device`, `messages`, `up_down`, `keep_bank`, `many`, `pairing`, `press_release`, `preselect_refuted` |
| C43 | proved | Bank up/down | `presses`, `in_range`, `inverse`, `plain`, `zero_refuted` |
| C44 | proved | Rig selection | `press`, `unknown`, `pairing` |
| C45 | proved | Bank selection | `press`, `pairing`, `no_rig`, `preselection` |
| C46 | partial | Effect categories | `total`, `one_family`, `family_shown`, `none`, `extended_text`, `named_partial`, `named_refuted` |
| C47 | proved | Value previews disappear | `lifetime`, `reset_later`, `reset_now`, `reset_color`, `cancelled`, `color_back`, `blink_refuted`, `no_callback_refuted` |
| C48 | proved | Strobe tuner LEDs | `leds_show_the_spot`, `ranges`, `one_switch`, `tuner_off` |
| C49 | proved | MIDI messages survive encoding and decoding | `sent_is_received`, `sending_writes_the_wire_format`, `channel_filter` |
| C50 | partial | The decoder always makes progress and never invents messages | `messages_are_in_the_stream`, `nothing_returned`, `buffer_bound`, `always_progress_refuted`, `seven_bit_fields_refuted` |
| C51 | partial | Fragmented messages are reassembled | `fragments_reassembled_partial`, `fragments_in_order_partial`, `channel_messages`, `sysex_fragments_refuted`, `messages_fit_the_buffer`, `port_partial` |
| C52 | proved | Display areas never overlap | `cut_top`, `cut_bottom`, `cut_left`, `cut_right`, `parts`, `split_disjoint`, `split_children` |
| C53 | partial | Tuner display | `marker_inside_partial`, `marker_almost_inside`, `marker_inside_refuted`, `monotone`, `deviance_shown`, `in_tune_limits`, `note_shown` |
| C54 | proved | Runtime statistics | `reports` |
| C55 | proved | Exploration mode cycles through switches | `exactly_one_lit`, `cyclic`, `up_down_inverse`, `pixels_disjoint`, `pixels_exist` |
| C56 | proved | Pressing an effect switch controls the device end to end | `wire`, `history`, `display`, `report`, `never_raises` |
| C57 | partial | Morph state display | `shown`, `between`, `ends`, `monotone`, `commands`, `toggle_twice_partial`, `toggle_twice_refuted` |
| C58 | proved | The client never raises | `never_raises`, `history`, `plain_client`, `told_apart_needed_refuted` |
| C59 | proved | The LED strip fits the assignment | `pixels` |
| C60 | partial | Automatic off rig | `off_numbers`, `return_partial`, `return_refuted`, `same_bank_refuted` |
| C61 | partial | Shown preselection is what the device waits for | `shown`, `next`, `rig_change_refuted` |
| C62 | proved | The client sends nothing but its configured messages | `set`, `request`, `nothing_else` |
| C63 | proved | Device parameters are never confused | `reports`, `commands`, `answer`, `objects`, `client` |
| C64 | partial | Tuner mode | `leave`, `enabling_partial`, `no_actions`, `processed`, `outside`, `display`, `lights`, `enabling_refuted`, `paired_refuted`, `hold_refuted` |
| C65 | proved | Client and bidirectional protocol together | `protocol`, `client`, `lost_when`, `lost_told`, `silence`, `never_raises`, `kemper`, `handled`, `sensing_free_needed_refuted` |
| C66 | proved | Display labels show what was last asked for and stay readable | `text`, `background`, `readable`, `configured_color`, `assigned_color`, `color_after_background`, `raises`, `draws_changes`, `rainbow_refuted` |
| C67 | partial | The rig label shows the current rig or the preselected bank | `shows_partial`, `preselection`, `unique`, `unique_bank`, `end_of_preselection_refuted`, `preselected_again_refuted`, `lost_refuted`, `parameter` |
| C68 | partial | The configuration editor keeps the configuration | `open_save`, `open_save_named`, `opens`, `rest_kept`, `saved`, `saves`, `new_variables`, `star_refuted`, `key_refuted`, `reassigned_refuted`, `alias_refuted`, `empty_list_refuted`, `nothing_saved_refuted`, `variable_lost_refuted`, `too_early_refuted` |
| C69 | partial | A saved configuration imports what it uses | `code_kept`, `only_used`, `imported`, `imported_from`, `function_import_refuted`, `function_first_refuted`, `own_import_refuted` |
| C70 | proved | The displayed morph state follows the rig buttons | `follows`, `momentary`, `bank_select_refuted` |
| C71 | proved | Screens are drawn once and only the visible one is updated | `drawn_once`, `drawn_never`, `new_screen`, `shown`, `updated`, `updated_nothing`, `shared_refuted` |
| C72 | proved | The tempo display follows the device | `led`, `text`, `nearest`, `no_empty_text`, `tuner`, `again`, `preview`, `no_preview`, `every_change_refuted` |
| C73 | proved | Effect buttons toggle and start with off in every rig | `follows`, `only_presses`, `reset`, `hidden`, `page_refuted`, `hidden_refuted` |
| C74 | proved | Labels announce the rig or bank a press selects | `rig_select`, `lit`, `blinks`, `current`, `rig_up_down`, `bank_up_down`, `bank_drawn`, `bank_select`, `bank_lit`, `configured`, `unknown`, `bank_off_refuted`, `dim_on_refuted`, `text_callback_refuted` |
| C75 | partial | The bank encoder and the switches agree on the preselected bank | `turn`, `only_banks`, `shown`, `rig_press`, `counts_shown_partial`, `keep_rig_partial`, `counts_shown_refuted`, `keep_rig_refuted`, `silent_refuted` |
| C76 | partial | The emulator's MIDI input delivers every message, once and in order | `ordered`, `as_monitored`, `read`, `queue_partial`, `paced_partial`, `lost_refuted` |
| C77 | partial | The emulator runs one engine at a time, and stop() stops it | `single_loop_partial`, `stopped_partial`, `crashed`, `keeps_ticking`, `returns_partial`, `faulty_start_refuted`, `overlap_refuted` |
| C78 | proved | The firmware and the emulator's virtual Kemper find each other and stay connected | `recovers`, `starts`, `lease_honoured`, `device_says`, `device_answers`, `short_lease_refuted`, `last_word_refuted` |
| C79 | partial | The emulator's virtual Kemper is a faithful memory for the firmware | `read_back_partial`, `set_read_partial`, `mirror`, `texts_refuted`, `tempo_partial`, `tempo_refuted` |
| C80 | partial | The emulator's virtual Kemper changes rigs like the documented device, and the firmware follows | `rig_known_partial`, `name_known_partial`, `names`, `loop_partial`, `press_partial`, `held_refuted`, `program_refuted` |
| C81 | partial | What the MIDI bridge sends are MIDI data bytes, and they decode to what was encoded | `packed`, `numbers`, `texts_partial`, `data_bytes`, `texts_refuted` |
| C82 | proved | Damaged bridge messages are rejected | `detected`, `intact`, `three_refuted`, `command_refuted` |
| C83 | partial | Files transferred by the MIDI bridge arrive complete and unchanged, or not at all | `received_partial`, `clean_partial`, `acknowledged`, `cut_refuted`, `seed_refuted` |
| C84 | partial | Over a reliable connection every transfer of the MIDI bridge is completed, exactly once | `bounded_partial`, `idle_partial`, `once_partial`, `sent_partial`, `file_partial`, `request_partial`, `empty_refuted`, `slow_refuted` |
| C85 | partial | The web editor loads and saves files on the controller correctly if it makes one call after the other | `settled_partial`, `load_partial`, `save_partial`, `roundtrip_partial`, `error_reported`, `connect_again`, `offline`, `at_once_refuted`, `empty_refuted`, `early_refuted` |
| C86 | partial | The MIDI bridge forgets transmissions which are not completed, and only those | `forget_partial`, `kept`, `forget_refuted` |
| C87 | partial | Presets in the web editor come back as they were saved, and only change when the user asks for it | `saved`, `new`, `deleted`, `renamed_partial`, `unchanged`, `back`, `once`, `apart`, `rename_refuted` |
| C88 | partial | The settings of the emulator and the downloaded config.py mean the same to the firmware | `shown`, `same_partial`, `interval_refuted`, `interval_shown_refuted`, `empty_refuted` |
| C89 | partial | The web editor warns about a display label exactly if two usages of it can be active at the same time | `exact_partial`, `only`, `position_refuted` |
| C90 | partial | The web editor says there are no unsaved changes only if the code is kept somewhere, and loses none without asking | `clean_partial`, `saved_partial`, `opening_partial`, `refused`, `tabs`, `applied_partial`, `marker_partial`, `race_refuted`, `mix_refuted`, `reload_refuted`, `browser_refuted`, `tabs_refuted`, `marker_refuted` |
| C91 | partial | Changing the actions of inputs in the web editor changes what it should and nothing else | `edited_partial`, `no_call_refuted`, `page_refuted`, `shared_refuted`, `taken_refuted`, `pages_refuted` |
| C92 | partial | The display editor changes only what the user changes, and never breaks elements which are in use | `used_kept`, `front`, `move`, `remove`, `create`, `drag`, `resize`, `fields`, `name`, `parameter`, `type`, `nothing`, `open_partial`, `dot`, `apply_partial`, `close_partial`, `open_refuted`, `drag_refuted`, `deep_refuted`, `identifier_refuted`, `close_refuted` |
| C93 | partial | The dialog for an action changes only what the user changes | `keeps_partial`, `others`, `enter`, `apply`, `select`, `selectable`, `new`, `inputs`, `default_refuted`, `number_refuted`, `choice_refuted`, `text_refuted`, `order_refuted`, `line_refuted`, `positional_refuted`, `backslash_refuted` |
| C94 | partial | Navigation is executed one at a time, in order, and nothing is lost | `hanging_refuted`, `message_refuted` |
| C95 | partial | Opening a configuration by its name opens this configuration | `round_trip`, `controller_partial`, `default`, `example_partial`, `template_partial`, `preset_partial`, `folder`, `home`, `plus_refuted`, `question_refuted`, `hash_refuted`, `percent_refuted`, `presets_refuted` |
| C96 | partial | A search on all MIDI ports ends with exactly one result | `once_partial`, `found_partial`, `failed_partial`, `told_partial`, `clean_partial`, `same_name_refuted`, `twice_refuted`, `pairs_partial`, `client_partial`, `virtual_refuted`, `choice_partial`, `race_refuted` |
| C97 | partial | Pages, names of new pagers and colors in the action dialog | `effect_partial`, `shown`, `remove_refuted`, `duplicate_refuted`, `name_partial`, `name_refuted`, `color_picked`, `color_shown` |
| C98 | partial | Rig volume boost | `boost_partial`, `shown_partial`, `fixed`, `loud_refuted`, `unseen_refuted`, `rig_refuted` |
| C99 | partial | MIDI monitor | `list`, `ignored`, `shown_partial`, `window`, `paused`, `reload`, `restored_partial`, `restore_refuted`, `pause_refuted`, `prefix_refuted` |
| C100 | partial | Tabs of the web application | `one`, `kept`, `some_partial`, `click`, `tabs`, `panel`, `source`, `some_refuted` |
| C101 | partial | Popups of the web application | `open`, `close`, `button`, `enter`, `seen_partial`, `seen_refuted`, `late_refuted` |
| C102 | partial | Browsing for files, ports and templates in the web application | `listing`, `choose`, `up`, `again_partial`, `same_partial`, `nearest_partial`, `first`, `again_refuted`, `nearest_refuted` |
| C103 | partial | Switches which send messages or keys | `sent_partial`, `paired_partial`, `text`, `paired_refuted`, `bytes_refuted` |
| C104 | partial | Switches and wheels of the emulated controller | `mouse`, `touch_partial`, `clicks_partial`, `wheel`, `clicks_refuted`, `touch_refuted` |
| C105 | partial | Typing code into a tab of the web application | `mark`, `apply`, `only`, `text_partial`, `shown_partial`, `text_refuted`, `shown_refuted` |
| C106 | partial | Transposing with an encoder, and values shown as texts | `text`, `range`, `direct`, `accept`, `step_partial`, `unknown_refuted`, `first_refuted`, `volume`, `volume_order`, `zero_refuted` |
| C107 | partial | Breaking texts into lines on the display of the emulated controller | `text`, `words`, `fits`, `break`, `space_refuted`, `empty_refuted` |
| C108 | partial | The general settings of a switch in the web application | `time`, `repeat`, `others`, `shown_partial`, `zero_refuted`, `empty_refuted`, `missing_refuted` |
| C109 | partial | Starting the firmware, and errors in the files of the user | `runs`, `first`, `reported_partial`, `reported_refuted`, `explore_refuted`, `console`, `explore`, `order`, `drive` |
| C110 | proved | Messages to the user of the web application | `shown`, `only`, `order`, `click` |
| C111 | partial | Watching the memory of the device | `fill`, `size`, `size_refuted`, `words`, `silent`, `lines`, `balance` |
| C112 | partial | The traffic shown by the virtual Kemper | `all`, `batch`, `rate_partial`, `rate_refuted` |
| C113 | partial | Names of actions in the web application | `rig`, `rig_total`, `rig_distinct`, `bank`, `button`, `distinct`, `slot`, `bank_refuted`, `slot_refuted` |
| C114 | partial | MIDI channels of the emulator | `hears`, `sends`, `shown`, `apart`, `range`, `starts_refuted`, `all_refuted`, `text_refuted` |
| C115 | partial | Parameters of tuners and labels in the display editor | `shown`, `used`, `chosen`, `others`, `deviance_partial`, `label`, `label_others`, `once`, `empty_refuted`, `note_refuted`, `deviance_refuted`, `font_refuted` |
| C116 | partial | Morphing in the virtual Kemper | `range`, `bug`, `fade`, `end`, `rig`, `time_refuted`, `new_rig_refuted`, `checkbox_refuted` |
| C117 | proved | Which actions, mappings and callbacks the web application offers | `offered`, `once`, `missing` |
| C118 | partial | Which mappings can be chosen for a parameter in the web application | `offered`, `sorted`, `once`, `available_partial`, `wide_refuted` |
| C119 | partial | Connecting the emulator to a client device | `one`, `chosen_partial`, `received_partial`, `tab_partial`, `virtual_refuted`, `late_refuted` |
| C120 | partial | Icons of actions in the web application | `color`, `kept`, `apart_partial`, `mixed_refuted`, `icons` |
| C121 | proved | Finding a Kemper at a MIDI port | `exact`, `firmware`, `request` |
| C122 | partial | Parameters of the callbacks of a display | `received_partial`, `shown_partial`, `others`, `once`, `check_boxes`, `number_refuted`, `default_refuted`, `sum_refuted` |
| C123 | partial | What can be chosen from the lists | `actions`, `once`, `edited`, `selected_partial`, `other_refuted`, `ports_partial`, `stale_refuted`, `presets`, `single` |
| C124 | partial | The callback of a label | `offered`, `chosen`, `needed`, `again`, `others`, `none_refuted`, `variable_refuted` |
| C125 | partial | Devices and their inputs | `device_partial`, `comment_refuted`, `listed`, `unnamed`, `found`, `devices`, `port_refuted` |

No property is marked not applicable; those depending on float rounding, on the scheduler of the runtime or on
hardware drivers are proved for the logic part, with the abstraction named in section 4. Notes on partial claims are in
`MANIFEST.json`.


## 4. Trusted base and abstractions

* The Coq 8.16.1 kernel, including its virtual machine (`vm_compute` is used for examples and for finite tables), and the
  standard library.
* Assumptions: `Print Assumptions` follows every property theorem, and answers "Closed under the global context" for each of
  them. No axioms are declared, no theorem uses a standard library axiom. (The library files that are loaded transitively
  contain the opaque module parameters of `Coq.ssr.ssrunder`; nothing refers to them.)
* The reading of the Python source; every definition cites the lines it models.
* Floats as exact rationals or integers (see method); CircuitPython single precision rounding is not modelled.
* One clock reading per modelled call where the Python code may read it several times in a row.
* Listeners passed to the client from outside are assumed not to call the client back from inside a notification; the
  client's own dependent requests, which do, are modelled.
* Messages are values; the in-place change of message objects by `set` is modelled in the mapping that owns them.

| Source | Modelled | Not modelled |
|--------|----------|--------------|
| `controller/client.py` | mappings, requests, client, dependency handling, bidirectional client | debug output |
| `controller/midi.py` | routings, controller, filters | |
| `controller/controller.py` | init, tick, process loop, updates, registration | `explore` import switch |
| `controller/inputs.py` | switch (push/release/hold/repeat/override), encoder and pedal polling | |
| `controller/actions/*.py` | push button modes, LED shares, encoder, analog, labels through callbacks | `displayio` calls |
| `controller/callbacks/*.py` | binary parameter, effect enable, parameter display, listening/registration | |
| `controller/preview.py`, `strobe.py`, `measure.py`, `explore.py` | all but output formatting | printing |
| `clients/kemper/__init__.py` | protocol, parameters, rig constants, tuner mode, rig name label | |
| `clients/kemper/mappings/*` | all | |
| `clients/kemper/actions/*` | rig/bank select and encoder, up/down, what they show, morph, effect state, categories and buttons, tempo, rig volume boost, transposition, display of volumes | looper, amplifier, fixed effects and tuner (instances of modelled actions), their texts |
| `clients/local/actions/*` | pager, rotate, parameter change, encoder button, messages, keys, fixed texts, binary switch (as push button with binary parameter) | |
| `clients/boomerang` | the rotating messages and LEDs | |
| `ui/*` | areas, split containers, labels, screens, tuner display | fonts, drawing |
| `hardware/adafruit/AdafruitSwitch.py`, `AdafruitEncoder.py` | what is read | GPIO, all other drivers |
| `stats.py` | lines and sizes | percentage |
| `process.py`, `boot.py` | order of the steps, errors, who can write files | the bridge (compiled code only) |
| `web/htdocs/python/adafruit_midi` | encoder and decoder of CC, PC, SysEx and unknown events | other message classes (one generic class) |
| `web/htdocs/lib/jsmidibridge/JsMidiBridge.js` | codecs, checksum, all handlers, timeouts of transmissions | console output; two calls of one bridge overlapping in time (handlers are atomic) |
| `web/htdocs/python/parser`, `web/htdocs/js/model/parser` | reading, changing and writing of actions, displays, pages and imports (`Editor`, `Edit`, `Imports`, `Pages`, `Checks`, `Properties`, `Displays`) | parsing and printing of Python by libcst, icons, names of functions in the user interface |
| `web/htdocs/js/model`, `js/routing`, `js/misc` | configurations, sessions, presets, settings, local storage, URLs, queue of requests | uploads and downloads of files by the browser |
| `web/htdocs/js/midi`, `js/*Controller.js` | ports, scanning, connection to devices and clients, detection of a Kemper, MIDI monitor | Web MIDI itself |
| `web/htdocs/js/ui` | tabs, popups, browser popup, dialogs for actions, pages, displays and switches, inputs and MIDI channels of the emulated controller, parameters of tuners, labels and callbacks, lists of actions, controllers, presets and mappings, colors of pages and icons of actions, notifications | HTML, CSS, drag and drop except in the display editor |
| `web/htdocs/python/PySwitchRunner.py`, `python/wrappers`, `js/PySwitchRunner.js` | MIDI input queue, start and stop of the runner, switches and wheels, line breaks of texts | other canvas output |
| `web/htdocs/clients/kemper/virtual` | protocol, parameters, rigs, tempo, morphing and traffic display of the virtual Kemper | tuner, other user interface |

## 5. Seeded bugs

`/verif/seeded/LOG.jsonl` lists edits of the model in a scratch copy, the claim each breaks and the theorems that no longer
build. An edit nothing noticed leads to a new or tightened theorem (`theorems_tightened`).

## 6. Findings

Behaviour of the code that contradicts or limits a property; each is a `_refuted` theorem or a `finding` example.

* C02: a SysEx with the right address but without value bytes still sets a value.
* C04: both mapping classes share one name space; the kind of the first request wins.
* C11: with several listeners on a dependent parameter only the first is told; asking again after a lost answer with an
  unchanged dependency gets nothing.
* C12: setting a protocol-handled parameter that was never registered or requested raises. C58: setting one whose only request
  was already answered raises, too; a message addressed to a parameter and its dependency can make the client raise.
* C14: the first initial beacon is sent 5 s after power on; loss of connection is told with the next initial beacon and again
  every 5 s while offline.
* C17 C18: a source routed to a target and to the application is split between both; later application sources starve.
* C21: startup does not return while a device never pauses.
* C23 C25: a release without push toggles HOLD_MOMENTARY; actions enabled between press and release see half a press.
* C27 C28: hold flags survive a press; holds armed when an override starts fire under it.
* C31: a command the device ignores keeps being displayed; an effect slot whose type arrives after its state shows off; a slot drawn again while its type is unknown keeps the text its label showed before (C31_effect_text_unknown_refuted).
  C56: a press before the first display update switches on but shows off; a redraw returns to the last known device value.
* C32: a list with an unresolved automatic value blocks enabling; NO_STATE_CHANGE remembers only the first report.
* C33: turning the bank encoder before a rig is known raises. C34: sharing one button for accept and cancel; cancelling with
  an unknown value makes the next turn raise. C35: position −1 loses a step; a step is swallowed after a change by the device.
* C36: full travel is not reached if the steps do not divide 65536; more than 65536 steps or a zero window raise.
* C39: a maximum below the reported value shows a brightness outside 0..1; held without feedback the same value is repeated.
* C41: page id 0 is ignored; an unknown own page rotates; a pager given mappings raises; nested pagers are not redrawn.
* C42 C61: rig up/down while a bank is preselected ends in the wrong bank and leaves the preselection displayed.
  C43: with no bank at all the press never returns. C60: automatic off rig and bank are remembered independently.
* C46: type 137 has a name but no category.
* C47: a blinking preview leaves its colour; a label without callback keeps the text; cancelled clients stay registered.
* C48: LEDs keep the brightness of the last tuner session; widths above one half are asymmetric.
* C50: a full buffer of data bytes ending in a status byte is never left; F0 F7 yields manufacturer F7. C51: every SysEx cut
  between two reads is lost.
* C53: with zoom the marker can leave the bar by one pixel; the first "in tune" deviance is not drawn.
* C54: a measurement started at clock 0 is ignored; one in flight across a report is dropped.
* C57: toggling morph twice from an intermediate state does not restore it.
* C64: the flag set by a press in tuner mode survives its end, so the next switch enabling the tuner disables it when released; a hold time running when tuner mode begins still triggers the hold actions; a press or release is lost when tuner mode begins or ends between them; after a lost connection the tuner display and the overrides stay.
* C65: the client hands over only messages nobody used: a parameter listening to the sensing message (BIDIRECTIONAL_SENSING) would hide the device from the protocol (C65_sensing_free_needed_refuted); none of the other parameters of the device does.
* C66: rainbow backgrounds, announced in the description of the layout, raise when the label is initialised without a text colour (C66_rainbow_refuted).
* C67: when a preselection ends without a new answer of the device the label keeps showing the bank, however often it is updated (C67_end_of_preselection_refuted); a bank preselected again before the next update is not shown if there was an answer in between (C67_preselected_again_refuted); a label showing only the rig number keeps it after the device is lost (C67_lost_refuted).
* C68: starred arguments lose the star, keys that are no string literals become strings, a variable assigned twice gets its first value everywhere, two names for one object become two objects; a variable holding an empty list cannot be saved; without the root, new variables are dropped, and if the file has only blocks nothing is saved at all; a new variable used by an existing one is defined too late (C68_*_refuted).
* C69: an import inside a function can remove the one on module level (C69_function_import_refuted); if the file starts with a function the imports are added inside it (C69_function_first_refuted); an import of an own definition can be replaced by a known one of the same name (C69_own_import_refuted).
* C70: BANK_SELECT for the current bank selects the current rig again, which morphs in such a device, but resets the remembered state (C70_bank_select_refuted).
* C71: An element that belongs to two screens is drawn only on the first one shown; the second misses it (C71_shared_refuted).
* C72: The rig is only remembered when the tempo changes: after switching to a rig with the same tempo, the first change of the tempo is not announced (C72_every_change_refuted).
* C73: The state is lost when the button is hidden and shown again, e.g. by the pager, although the device keeps it; the next press sends on again (C73_page_refuted). A hidden button that was on draws itself on its label at the next rig change, over what the visible page shows there (C73_hidden_refuted).
* C74: A rig select switch with bank and off bank but without off rig still announces its own rig when that is selected, although the press goes to the off bank (C74_bank_off_refuted). bank_up_down.py:119 compares the display mode instead of the dim factor with "on", so the documented `dim_factor = "on"` raises on drawing the label (C74_dim_on_refuted). For bank select the fixed text and colour win over the callbacks, contrary to their documentation (C74_text_callback_refuted).
* C75: The encoder stores its bank in the shared "Select Bank" parameter as the first rig of that bank. A bank switch pressed before the device reports again therefore selects rig 1 instead of keeping the rig (C75_keep_rig_refuted). Banks preselected with switches do not move the encoder: it counts from the current bank, not from the one shown (C75_counts_shown_refuted). The encoder drops a turn whose target is the bank it has sent last, even if another bank has been loaded since (C75_silent_refuted).
* C76: `WrapMidiInput.read` takes a message from the queue before checking whether it fits, and returns without it: the message is lost, and the MIDI monitor does not show it either. The counter `cnt` is never increased, so a read returns more bytes than asked for if the queue holds several messages. Together: after a burst which fills the buffer beyond its size, the next message arriving before the buffer is emptied is lost, however short it is (C76_lost_refuted: 18 messages of 14 bytes, then a control change). Messages longer than 100 bytes never arrive.
* C77: If the start-up of the controller raises an exception (a faulty configuration), `running` remains true although no timer is set; the waiting loop of `stop()`, which every later `run()` starts with, never ends (C77_faulty_start_refuted). If `run()` is called again before it has returned, the runner of one call is replaced while it is ticking; it cannot be stopped any more (C77_overlap_refuted).
* C78: A lease of one second is encoded as 0 (units of two seconds): the virtual device gives up at its next update and stays silent about parameter changes most of the time while the firmware shows the connection as established (C78_short_lease_refuted). When the lease ends, `update()` may still send a keep-alive in the same call (C78_last_word_refuted); the firmware then notices the loss up to half a second later.
* C79: The cabinet name and the rig comment are requested as texts, but the virtual device has no such parameters: it creates numbers and answers with the code of a number, so the firmware never gets a text (C79_texts_refuted). The tempo is rounded to whole bpm and written back (C79_tempo_refuted).
* C80: A bank preselected while a rig switch is held is forgotten at the release of that switch, so the next rig comes from the old bank (C80_held_refuted, reachable with two switches of the firmware). A program change alone is taken over but only echoed as one half of the pair, and the name is not updated, so the firmware keeps the old rig (C80_program_refuted).
* C81: A text (or a part of a text, see C83) which begins with U+FEFF loses it, since TextDecoder drops a byte order mark; lone surrogates become U+FFFD (C81_texts_refuted).
* C82: Three neighbouring bytes can change unnoticed: the polynomial 0x6756 has a clear highest bit, so the register holds 15 bits only, and a wrong text is accepted (C82_three_refuted). The command byte is not covered by the checksum: data can turn into the start of another transmission (C82_command_refuted).
* C83: A file is cut into parts by UTF-16 code units: if a cut falls inside a surrogate pair (an emoji at a chunk boundary) both halves become U+FFFD and the file is silently damaged (C83_cut_refuted). The random start of the ids may be 2^24, then the first two transmissions share an id (C83_seed_refuted).
* C84: An empty file is exchanged forever: part 0 is not the last of 0 parts, so each acknowledgement makes the sender send another empty part (C84_empty_refuted). If a message takes more than 5 s and another transmission is started meanwhile, the first one is dropped and never completed, without any error at its receiver (C84_slow_refuted).
* C85: Two loads at the same time are mixed up: the second promise gets the first file, and the first promise is never settled (C85_at_once_refuted). saveFile with an empty content throws inside the executor of its promise, so the promise is never settled: saving an empty file hangs (C85_empty_refuted). saveFile reports success when the last part has been sent, not when the controller has acknowledged it (C85_early_refuted).
* C86: A transmission whose start message arrives but none of its parts gets no time stamp, so it is never dropped (C86_forget_refuted): each such lost transfer leaks memory on the receiver for good.
* C87: Renaming a preset to the name of an existing one deletes the existing one without asking (C87_rename_refuted).
* C88: debugStatsInterval set to 2000 is left out of config.py as a default, while the firmware takes the update interval (200) instead, and the dialog shows 2000 when 200 is used (C88_interval_refuted, C88_interval_shown_refuted). Emptying a number field makes the downloaded config.py invalid Python (C88_empty_refuted).
* C89: A display which is given to an action by position makes the whole check throw, so that no action can be shown (C89_position_refuted).
* C90: A change made while a save is under way is marked as saved, though it is not (C90_race_refuted). Code applied while the configuration is being sent to the controller leaves a mixture of an old inputs.py and a new display.py there (C90_mix_refuted). If files of the open folder are changed by another program, or the folder is chosen again, unsaved changes are discarded without asking, although the comment in the code says otherwise (C90_reload_refuted); likewise with the browser's back button (C90_browser_refuted). Applying one code tab, or any change in the frontend, discards what was typed in the other tab (C90_tabs_refuted). A failed save to another place leaves the mark for unsaved changes (C90_marker_refuted).
* C91: An action which is not written as a call makes every change of its input fail (C91_no_call_refuted), likewise pages of a pager which are defined as a variable (C91_pages_refuted). Pages of all pagers of the changed input lose all keys apart from id, color and text (C91_page_refuted). If an action is used twice by its variable, changing it at its first place has no effect (C91_shared_refuted). The editor accepts a variable which is in use already, and overwrites the action of another input with it (C91_taken_refuted).
* C92: Opening the editor already changes the place and size of protocol state dots, so that it asks for unsaved changes although there are none (C92_open_refuted). Dragging or resizing an element whose position is an expression writes NaN (C92_drag_refuted). Names are only compared one level deep (C92_deep_refuted), may begin with a digit (C92_identifier_refuted), and a changed display driver is lost without a question (C92_close_refuted).
* C93: EncoderAction gets a reset mapping if it had none (C93_default_refuted). Number fields replace everything which is no number by the default, for example lists of values (C93_number_refuted). Values a selection does not offer are lost (C93_choice_refuted). Texts given by an expression become literals, and lose their quotes (C93_text_refuted). The page a pager selects is lost if it is given before the pages (C93_order_refuted). Line breaks are removed, so that a comment swallows the rest of the code (C93_line_refuted). Actions with positional arguments cannot be opened (C93_positional_refuted). A backslash at the end of a text breaks the configuration (C93_backslash_refuted).
* C94: A route which never ends blocks navigation until the page is reloaded (C94_hanging_refuted). If showing an error throws, the queue is blocked for ever, as the flag is not reset (C94_message_refuted).
* C95: A plus sign in a name becomes a space (C95_plus_refuted). What comes after a question mark is ignored (C95_question_refuted). A hash mark at the end opens the scan for controllers (C95_hash_refuted). Presets are decoded once too often: a percent sign is an error, or another preset is opened, which is then overwritten on saving (C95_percent_refuted, C95_presets_refuted).
* C96: Ports with the same name (two controllers of the same type) break the search: none is reported although one is found, or a result is reported twice (C96_same_name_refuted, C96_twice_refuted). A device whose name begins with virtual cannot be connected (C96_virtual_refuted). A search which is still running disconnects the client the user has chosen meanwhile (C96_race_refuted).
* C97: The remove button of a page uses the ID of the time when the row was created: after editing IDs it removes nothing, or another page (C97_remove_refuted). Removing one of several pages with the same ID removes all of them (C97_duplicate_refuted). The name of a new pager is only compared to the names of pagers (C97_name_refuted).
* C98: A rig which is as loud as the boost is shown as boosted, and switching off there sets the volume of another rig (C98_loud_refuted), or only the display when no other volume has been seen (C98_unseen_refuted). After a change of the rig, the switch sets the volume of the former rig until the new volume is known (C98_rig_refuted).
* C99: Two rows of the same name can be ignored; removing one of them from the list does not show the messages again (C99_restore_refuted). Ignoring a message pauses the monitor, because the click also reaches the list (C99_pause_refuted). Data which are no complete message hide all messages which begin with them (C99_prefix_refuted).
* C100: If the tab of a virtual client is the one which is seen and another client is connected, no tab is seen at all, though there are tabs, until the user chooses one (C100_some_refuted).
* C101: Closing one popup hides the container of all: another popup which is still open cannot be seen any more, but the next click anywhere asks the user whether to close it (C101_seen_refuted). A popup closed before the timeout of its opening leaves a handler: the next click tells it to have been closed again (C101_late_refuted).
* C102: If a folder has the same text as an entry before it, opening the browser again calls that entry without the user having chosen it (C102_again_refuted). If a folder on the way has gone, the texts below it are looked for above it, so an unrelated folder of the same name may be shown (C102_nearest_refuted).
* C103: If an action is disabled while its switch is held (page changed), the message for releasing is never sent, so a note goes on (C103_paired_refuted). A value above 255 in a message is only noticed when the switch is pushed, and ends the program (C103_bytes_refuted).
* C104: A click which is over before the next poll of the emulated controller is lost (C104_clicks_refuted). If the system cancels a touch, the switch stays pushed until it is touched again (C104_touch_refuted).
* C105: What is typed between choosing a tab and its timeout (0 ms) is overwritten (C105_text_refuted). If a tab is chosen between opening a configuration and the timeout, it contains the code of the former configuration without being marked; applying would overwrite the new one (C105_shown_refuted).
* C106: Turned before the transposition is known, the encoder transposes by -36 half steps (C106_unknown_refuted); with preselection the first step always shows and sends -36, even if the transposition is known (C106_first_refuted). Levels rounded to zero are shown as +0.0dB or -0.0dB (C106_zero_refuted).
* C107: The first line begins with a space, so that a text which just fits is broken, and centered texts are off the center (C107_space_refuted). If the first word does not fit, an empty line comes first (C107_empty_refuted).
* C108: A hold time of 0 is shown as 600 (C108_zero_refuted). Clearing the field writes NaN, with which the firmware fails (C108_empty_refuted). For a switch which is not in the configuration yet, all changes raise an error and have no effect (C108_missing_refuted).
* C109: Errors in config.py and communication.py end the program although the bridge can write these files too (C109_reported_refuted); in explore mode there is no bridge at all (C109_explore_refuted), so exploreMode set over MIDI can only be taken back with the drive mounted.
* C111: Sizes shortly below the next unit are shown as 1024.0 of the smaller one (C111_size_refuted).
* C112: The number of messages is multiplied with the elapsed seconds instead of divided: with a timer after 2 seconds or later, twice the number or more is shown per second (C112_rate_refuted).
* C113: The bank of RIG_SELECT is not told (C113_bank_refuted), nor the difference between delay and reverb slots with and without spillover (C113_slot_refuted).
* C114: Any other number keeps the emulator from starting (C114_range, C114_starts_refuted). All as output channel is shown as 1, but the emulator does not start (C114_all_refuted). A text which is no number is taken for All (C114_text_refuted).
* C115: Clearing a field of a tuner leaves an argument without code (C115_empty_refuted). The list for the note mapping does not show the mapping of the configuration (C115_note_refuted), and the list for the deviance not the one which was chosen (C115_deviance_refuted). Choosing the font of the note drops the rest of its layout (C115_font_refuted).
* C116: As the web application is set up (simulateMorphBug) the morph buttons do nothing (C116_bug). Without this a fade takes 40 updates, i.e. 0.2 instead of 4 seconds (C116_time_refuted), goes on when another rig is selected (C116_new_rig_refuted), and the checkbox of the option is off while the option is on (C116_checkbox_refuted).
* C118: if one mapping has a range of more than 101 numbers without additional values, iterating over null fails, and no mappings at all are offered (`MappingOptions.js` 33-34, `ParameterRange.js` 38-42).
* C119: ports are only heard if they were there when the web application started: a device switched on later is connected but nothing is received from it (`MidiHandler.js` 25-28). Ports with names beginning with "virtual" cannot be chosen: choosing fails, with the tab of the old client remaining, or connects to a simulation (`ClientController.js` 132-136).
* C120: pages are told apart by the text of pager and page one after the other: page 12 of pager P and page 2 of pager P1 share their color (`ParserFrontendIcons.js` 96-106).
* C122: A number typed for a parameter of a callback is saved in quotes: the callback gets a text, and the field is empty afterwards. A threshold of the tuner, 8192 + 350, is shown as 8192. A default of the metadata which differs from the one of the code cannot be chosen.
* C123: The lists of controllers are made when opened for the first time and never again: a controller connected later is not offered until the page is loaded again, and a removed one remains. If only one action is offered (potentiometers), it is selected instead of the edited one.
* C124: A label without callback shows None, but typing None makes the call None(), with which the configuration fails (`DisplayLabelTypeParameterList.js` 128-136). A callback which is the name of a variable is not shown.
* C125: A configuration which mentions the module of the smallest device anywhere, for example in a comment, is taken for that device, whichever it imports (`Device.js` 12-20). The port alone, which is meant to identify an input (`PySwitchHardware.py` 50), does not: pedals and switches of the 10 switch device share their ports.
