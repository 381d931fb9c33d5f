{
 "claims": [
  {
   "property": "C01",
   "status": "proved",
   "theorems": [
    "C01_round_trip",
    "C01_range"
   ],
   "note": ""
  },
  {
   "property": "C02",
   "status": "proved",
   "theorems": [
    "C02_addressed_only",
    "C02_value_unique",
    "C02_no_response",
    "C02_truncated_message_refuted"
   ],
   "note": "C02_truncated_message_refuted is an additional finding: a SysEx without value bytes still sets a value."
  },
  {
   "property": "C03",
   "status": "proved",
   "theorems": [
    "C03_two_part",
    "C03_total"
   ],
   "note": ""
  },
  {
   "property": "C04",
   "status": "proved",
   "theorems": [
    "C04_unique_per_name",
    "C04_first_request_creates",
    "C04_never_changed",
    "C04_kind_by_name_refuted"
   ],
   "note": "C04_kind_by_name_refuted is an additional finding: the two factories share one name space."
  },
  {
   "property": "C05",
   "status": "proved",
   "theorems": [
    "C05_one_request"
   ],
   "note": ""
  },
  {
   "property": "C06",
   "status": "proved",
   "theorems": [
    "C06_life_of_requests",
    "C06_enlisted",
    "C06_told_exactly_once",
    "C06_answer_is_told",
    "C06_only_answers_are_told"
   ],
   "note": ""
  },
  {
   "property": "C07",
   "status": "proved",
   "theorems": [
    "C07_sent_iff_idle",
    "C07_sent_count"
   ],
   "note": ""
  },
  {
   "property": "C08",
   "status": "proved",
   "theorems": [
    "C08_never_early",
    "C08_terminated_is_timeout",
    "C08_terminated_at_poll",
    "C08_bounded",
    "C08_receive_ends"
   ],
   "note": ""
  },
  {
   "property": "C09",
   "status": "proved",
   "theorems": [
    "C09_registered",
    "C09_forever",
    "C09_delivery",
    "C09_delivery_two_part"
   ],
   "note": ""
  },
  {
   "property": "C10",
   "status": "proved",
   "theorems": [
    "C10_foreign_message",
    "C10_empty_poll"
   ],
   "note": ""
  },
  {
   "property": "C11",
   "status": "partial",
   "theorems": [
    "C11_asks_dependency",
    "C11_when_changed",
    "C11_only_when_changed",
    "C11_every_listener_refuted",
    "C11_second_ask_refuted"
   ],
   "note": "Asking and when/only-when are proved. That every listener is notified is false of the code: see the _refuted theorems."
  },
  {
   "property": "C12",
   "status": "proved",
   "theorems": [
    "C12_feedback",
    "C12_no_feedback",
    "C12_unregistered_refuted"
   ],
   "note": "C12_unregistered_refuted is an additional finding: setting an unregistered protocol-handled parameter raises."
  },
  {
   "property": "C13",
   "status": "proved",
   "theorems": [
    "C13_connection_lost"
   ],
   "note": ""
  },
  {
   "property": "C14",
   "status": "proved",
   "theorems": [
    "C14_update_exact",
    "C14_receive_exact",
    "C14_initial_beacons_spaced",
    "C14_keepalive_spaced",
    "C14_keepalive_only_connected",
    "C14_initial_only_disconnected",
    "C14_lost_never_early",
    "C14_established_after_beacon",
    "C14_lost_notification"
   ],
   "note": ""
  },
  {
   "property": "C15",
   "status": "proved",
   "theorems": [
    "C15_beacon_content"
   ],
   "note": ""
  },
  {
   "property": "C16",
   "status": "proved",
   "theorems": [
    "C16_send_exact"
   ],
   "note": ""
  },
  {
   "property": "C17",
   "status": "proved",
   "theorems": [
    "C17_poll_exact",
    "C17_total",
    "C17_streams",
    "C17_forwarded_once",
    "C17_each_source_once_per_poll",
    "C17_external_exact",
    "C17_later_sources_starve"
   ],
   "note": ""
  },
  {
   "property": "C18",
   "status": "partial",
   "theorems": [
    "C18_shared_source_refuted",
    "C18_shared_source_partial"
   ],
   "note": ""
  },
  {
   "property": "C19",
   "status": "proved",
   "theorems": [
    "C19_pass_exact",
    "C19_nothing_lost"
   ],
   "note": ""
  },
  {
   "property": "C20",
   "status": "proved",
   "theorems": [
    "C20_tick_exact",
    "C20_updates_exact",
    "C20_registered_once",
    "C20_updates_apart"
   ],
   "note": ""
  },
  {
   "property": "C21",
   "status": "proved",
   "theorems": [
    "C21_drains",
    "C21_returns_iff"
   ],
   "note": ""
  },
  {
   "property": "C22",
   "status": "proved",
   "theorems": [
    "C22_expiry_exact",
    "C22_expiries_apart"
   ],
   "note": ""
  },
  {
   "property": "C23",
   "status": "proved",
   "theorems": [
    "C23_modes",
    "C23_latch_parity",
    "C23_hold_momentary",
    "C23_unpaired_release_refuted"
   ],
   "note": "C23_unpaired_release_refuted is an additional finding: a release without a press toggles HOLD_MOMENTARY."
  },
  {
   "property": "C24",
   "status": "proved",
   "theorems": [
    "C24_commands"
   ],
   "note": ""
  },
  {
   "property": "C25",
   "status": "proved",
   "theorems": [
    "C25_edges",
    "C25_alternate",
    "C25_paired_release_refuted"
   ],
   "note": "C25_paired_release_refuted is an additional finding about actions whose enablement changes between press and release."
  },
  {
   "property": "C26",
   "status": "proved",
   "theorems": [
    "C26_press",
    "C26_while_held",
    "C26_idle"
   ],
   "note": ""
  },
  {
   "property": "C27",
   "status": "partial",
   "theorems": [
    "C27_hold_clicks_apart",
    "C27_exclusive",
    "C27_press_partial",
    "C27_independent_refuted",
    "C27_spurious_hold_refuted"
   ],
   "note": "Independence of consecutive presses is false of the code: see the _refuted theorems."
  },
  {
   "property": "C28",
   "status": "partial",
   "theorems": [
    "C28_declined_partial",
    "C28_never_armed",
    "C28_accepting_transparent",
    "C28_armed_hold_refuted",
    "C28_leftover_hold_refuted",
    "C28_unpaired_refuted"
   ],
   "note": "False of the code for hold actions armed or left over when the override is set or removed: see the _refuted theorems."
  },
  {
   "property": "C29",
   "status": "proved",
   "theorems": [
    "C29_partition",
    "C29_one_owner",
    "C29_shares",
    "C29_others_none",
    "C29_total"
   ],
   "note": ""
  },
  {
   "property": "C30",
   "status": "proved",
   "theorems": [
    "C30_color",
    "C30_color_frame",
    "C30_color_per_led",
    "C30_color_middle",
    "C30_no_leds",
    "C30_brightness",
    "C30_range",
    "C30_wrong_length_raises"
   ],
   "note": ""
  },
  {
   "property": "C31",
   "status": "proved",
   "theorems": [
    "C31_state",
    "C31_silent",
    "C31_displayed",
    "C31_ignored_command_refuted",
    "C31_effect_slot_refuted",
    "C31_effect_slot",
    "C31_effect_texts",
    "C31_effect_text_current",
    "C31_effect_text_unknown_refuted"
   ],
   "note": "The _refuted theorems are additional findings: a command the device ignores keeps being shown, and an effect slot whose type arrives after its on-value shows off."
  },
  {
   "property": "C32",
   "status": "partial",
   "theorems": [
    "C32_auto_off",
    "C32_auto_off_list",
    "C32_remembered_determined",
    "C32_enable_blocked_refuted",
    "C32_no_state_change_refuted"
   ],
   "note": "Proved for the comparing modes. False of the code for a list with an unresolved auto value and for NO_STATE_CHANGE: see the _refuted theorems."
  },
  {
   "property": "C33",
   "status": "proved",
   "theorems": [
    "C33_sends",
    "C33_still_silent",
    "C33_bank_announced",
    "C33_never_raises",
    "C33_bank_unknown_refuted"
   ],
   "note": "a bank encoder turned before any rig is known raises (refuted separately)"
  },
  {
   "property": "C34",
   "status": "partial",
   "theorems": [
    "C34_only_accept_sends",
    "C34_accept_in_range",
    "C34_accept_once",
    "C34_accept_value",
    "C34_button",
    "C34_button_shared_refuted",
    "C34_cancel_unknown_refuted"
   ],
   "note": ""
  },
  {
   "property": "C35",
   "status": "partial",
   "theorems": [
    "C35_step_counts_partial",
    "C35_minus_one_refuted",
    "C35_device_change_refuted",
    "C35_first_preselection_refuted",
    "C35_value_minus_one_refuted"
   ],
   "note": ""
  },
  {
   "property": "C36",
   "status": "proved",
   "theorems": [
    "C36_in_range",
    "C36_zero_below_threshold",
    "C36_full_travel",
    "C36_monotone",
    "C36_poll_exact",
    "C36_never_raises",
    "C36_full_travel_refuted",
    "C36_raises_refuted"
   ],
   "note": "the two _refuted theorems concern configurations outside the claim (steps not dividing 65536, more than 65536 steps, window 0)"
  },
  {
   "property": "C37",
   "status": "proved",
   "theorems": [
    "C37_sends_differ",
    "C37_sends_spaced",
    "C37_quiet_until_window"
   ],
   "note": ""
  },
  {
   "property": "C38",
   "status": "proved",
   "theorems": [
    "C38_calibrated",
    "C38_window_contains",
    "C38_window_grows",
    "C38_ends",
    "C38_monotone"
   ],
   "note": ""
  },
  {
   "property": "C39",
   "status": "proved",
   "theorems": [
    "C39_push",
    "C39_current_value",
    "C39_in_range",
    "C39_default_maximum",
    "C39_repeat_spaced",
    "C39_repeats",
    "C39_release_stops",
    "C39_no_repeat",
    "C39_display",
    "C39_display_refuted",
    "C39_held_without_report_refuted"
   ],
   "note": "the _refuted theorems are findings about configurations outside the claim (maximum below the reported value; device that has not answered yet)"
  },
  {
   "property": "C40",
   "status": "proved",
   "theorems": [
    "C40_trace",
    "C40_presses",
    "C40_boomerang",
    "C40_boomerang_leds"
   ],
   "note": ""
  },
  {
   "property": "C41",
   "status": "partial",
   "theorems": [
    "C41_never_raises",
    "C41_current",
    "C41_rotation",
    "C41_direct",
    "C41_proxy",
    "C41_unknown_proxy",
    "C41_enabled",
    "C41_displays",
    "C41_own_led",
    "C41_zero_page_refuted",
    "C41_unknown_page_refuted"
   ],
   "note": "proved for all histories except that an own page id 0 (falsy) is ignored, see C41_zero_page_refuted"
  },
  {
   "property": "C42",
   "status": "proved",
   "theorems": [
    "C42_device",
    "C42_messages",
    "C42_up_down",
    "C42_keep_bank",
    "C42_many",
    "C42_pairing",
    "C42_press_release",
    "C42_preselect_refuted"
   ],
   "note": "All clauses proved. C42_preselect_refuted records that the claim does not extend to a preselected bank."
  },
  {
   "property": "C43",
   "status": "proved",
   "theorems": [
    "C43_presses",
    "C43_in_range",
    "C43_inverse",
    "C43_plain",
    "C43_zero_refuted"
   ],
   "note": "All clauses proved for at least one bank; C43_zero_refuted shows the press never returns with max_bank 0."
  },
  {
   "property": "C44",
   "status": "proved",
   "theorems": [
    "C44_press",
    "C44_unknown",
    "C44_pairing"
   ],
   "note": ""
  },
  {
   "property": "C45",
   "status": "proved",
   "theorems": [
    "C45_press",
    "C45_pairing",
    "C45_no_rig",
    "C45_preselection"
   ],
   "note": ""
  },
  {
   "property": "C46",
   "status": "partial",
   "theorems": [
    "C46_total",
    "C46_one_family",
    "C46_family_shown",
    "C46_none",
    "C46_extended_text",
    "C46_named_partial",
    "C46_named_refuted"
   ],
   "note": "All integers have exactly one family with name and colour; named types have a category except 137 (refuted)."
  },
  {
   "property": "C47",
   "status": "proved",
   "theorems": [
    "C47_lifetime",
    "C47_reset_later",
    "C47_reset_now",
    "C47_reset_color",
    "C47_cancelled",
    "C47_color_back",
    "C47_blink_refuted",
    "C47_no_callback_refuted"
   ],
   "note": "All clauses proved. The refuted theorems record cases outside the statement: unpinned blinking previews, labels without callback."
  },
  {
   "property": "C48",
   "status": "proved",
   "theorems": [
    "C48_leds_show_the_spot",
    "C48_ranges",
    "C48_one_switch",
    "C48_tuner_off"
   ],
   "note": "Exact rationals instead of floats. The pattern theorem is for widths up to one half (wider ones are not symmetric, see C48_finding_wide); ranges, termination and the off/one-switch parts hold for every width."
  },
  {
   "property": "C49",
   "status": "proved",
   "theorems": [
    "C49_sent_is_received",
    "C49_sending_writes_the_wire_format",
    "C49_channel_filter"
   ],
   "note": "Any groups of messages, any lengths; reads end on message boundaries as the property says."
  },
  {
   "property": "C50",
   "status": "partial",
   "theorems": [
    "C50_messages_are_in_the_stream",
    "C50_nothing_returned",
    "C50_buffer_bound",
    "C50_always_progress_refuted",
    "C50_seven_bit_fields_refuted"
   ],
   "note": "Messages are in the stream, buffer bounded, what is kept is described exactly; refuted: the receiver can get stuck for ever on a full buffer of data bytes ending in a status byte, and system exclusive messages without manufacturer id get the end status as id."
  },
  {
   "property": "C51",
   "status": "partial",
   "theorems": [
    "C51_fragments_reassembled_partial",
    "C51_fragments_in_order_partial",
    "C51_channel_messages",
    "C51_sysex_fragments_refuted",
    "C51_messages_fit_the_buffer",
    "C51_port_partial"
   ],
   "note": "Proved for all cuts outside system exclusive messages (control/program changes may be cut anywhere); refuted for every cut inside a system exclusive message."
  },
  {
   "property": "C52",
   "status": "proved",
   "theorems": [
    "C52_cut_top",
    "C52_cut_bottom",
    "C52_cut_left",
    "C52_cut_right",
    "C52_parts",
    "C52_split_disjoint",
    "C52_split_children"
   ],
   "note": "Cutting proved for every amount from 0 to the size of the area; containers nested to any depth and built by any sequence of additions."
  },
  {
   "property": "C53",
   "status": "partial",
   "theorems": [
    "C53_marker_inside_partial",
    "C53_marker_almost_inside",
    "C53_marker_inside_refuted",
    "C53_monotone",
    "C53_deviance_shown",
    "C53_in_tune_limits",
    "C53_note_shown"
   ],
   "note": "Monotone, colour limits and note proved for all histories; the marker stays inside without zoom or when the bar starts at x = 0; refuted otherwise (one pixel to the left), with the tight bound proved."
  },
  {
   "property": "C54",
   "status": "proved",
   "theorems": [
    "C54_reports"
   ],
   "note": ""
  },
  {
   "property": "C55",
   "status": "proved",
   "theorems": [
    "C55_exactly_one_lit",
    "C55_cyclic",
    "C55_up_down_inverse",
    "C55_pixels_disjoint",
    "C55_pixels_exist"
   ],
   "note": ""
  },
  {
   "property": "C56",
   "status": "proved",
   "theorems": [
    "C56_wire",
    "C56_history",
    "C56_display",
    "C56_report",
    "C56_never_raises"
   ],
   "note": ""
  },
  {
   "property": "C57",
   "status": "partial",
   "theorems": [
    "C57_shown",
    "C57_between",
    "C57_ends",
    "C57_monotone",
    "C57_commands",
    "C57_toggle_twice_partial",
    "C57_toggle_twice_refuted"
   ],
   "note": "Colour, ends, monotonicity and commands proved for all histories and every monotone rounding; toggling twice restores 0 and 16383, refuted for states in between."
  },
  {
   "property": "C58",
   "status": "proved",
   "theorems": [
    "C58_never_raises",
    "C58_history",
    "C58_plain_client",
    "C58_told_apart_needed_refuted"
   ],
   "note": "C58_told_apart_needed_refuted is an additional finding: without the condition that no message is addressed to a parameter and its dependency the client can raise."
  },
  {
   "property": "C59",
   "status": "proved",
   "theorems": [
    "C59_pixels"
   ],
   "note": ""
  },
  {
   "property": "C60",
   "status": "partial",
   "theorems": [
    "C60_off_numbers",
    "C60_return_partial",
    "C60_return_refuted",
    "C60_same_bank_refuted"
   ],
   "note": "Full off-number semantics proved (C60_off_numbers); returning to the previous rig holds when it differs in rig (and bank, if configured); refuted otherwise."
  },
  {
   "property": "C61",
   "status": "partial",
   "theorems": [
    "C61_shown",
    "C61_next",
    "C61_rig_change_refuted"
   ],
   "note": "Proved for all sets of rig select, bank select and preselecting bank up/down switches; refuted with rig up/down in the set."
  },
  {
   "property": "C62",
   "status": "proved",
   "theorems": [
    "C62_set",
    "C62_request",
    "C62_nothing_else"
   ],
   "note": ""
  },
  {
   "property": "C63",
   "status": "proved",
   "theorems": [
    "C63_reports",
    "C63_commands",
    "C63_answer",
    "C63_objects",
    "C63_client"
   ],
   "note": ""
  },
  {
   "property": "C64",
   "status": "partial",
   "theorems": [
    "C64_leave",
    "C64_enabling_partial",
    "C64_no_actions",
    "C64_processed",
    "C64_outside",
    "C64_display",
    "C64_lights",
    "C64_enabling_refuted",
    "C64_paired_refuted",
    "C64_hold_refuted"
   ],
   "note": "Leaving, display, lights, suppressed and processed actions proved for all histories in which no hold time runs when tuner mode begins (calm). Missing: the release of the enabling switch can disable the tuner after a press that outlived an earlier tuner mode (C64_enabling_refuted), hold actions fire if their time runs at the beginning (C64_hold_refuted), unpaired press or release (C64_paired_refuted)."
  },
  {
   "property": "C65",
   "status": "proved",
   "theorems": [
    "C65_protocol",
    "C65_client",
    "C65_lost_when",
    "C65_lost_told",
    "C65_silence",
    "C65_never_raises",
    "C65_kemper",
    "C65_handled",
    "C65_sensing_free_needed_refuted"
   ],
   "note": "Sensing messages are assumed not to be a parameter of the client; for the parameters of the device this is proved (C65_kemper)."
  },
  {
   "property": "C66",
   "status": "proved",
   "theorems": [
    "C66_text",
    "C66_background",
    "C66_readable",
    "C66_configured_color",
    "C66_assigned_color",
    "C66_color_after_background",
    "C66_raises",
    "C66_draws_changes",
    "C66_rainbow_refuted"
   ],
   "note": "One-coloured backgrounds; luminance computed exactly instead of in floats; wrapping is an arbitrary function (external library)."
  },
  {
   "property": "C67",
   "status": "partial",
   "theorems": [
    "C67_shows_partial",
    "C67_preselection",
    "C67_unique",
    "C67_unique_bank",
    "C67_end_of_preselection_refuted",
    "C67_preselected_again_refuted",
    "C67_lost_refuted",
    "C67_parameter"
   ],
   "note": "Proved: right after every answer until the preselection changes, and from the next update on after a new preselection. Missing: the end of a preselection without an answer (the code violates it, see the refuted theorems)."
  },
  {
   "property": "C68",
   "status": "partial",
   "theorems": [
    "C68_open_save",
    "C68_open_save_named",
    "C68_opens",
    "C68_rest_kept",
    "C68_saved",
    "C68_saves",
    "C68_new_variables",
    "C68_star_refuted",
    "C68_key_refuted",
    "C68_reassigned_refuted",
    "C68_alias_refuted",
    "C68_empty_list_refuted",
    "C68_nothing_saved_refuted",
    "C68_variable_lost_refuted",
    "C68_too_early_refuted"
   ],
   "note": "Proved: opening and saving is the identity on tidy files (every variable assigned once, no stars, string keys), the rest of the file is kept and the saved values are right for any data; new variables come before their uses if they are only used by the root or other new ones. Missing: untidy files (the code violates it, see the refuted theorems). C68_open_save_named covers the names given to positional arguments."
  },
  {
   "property": "C69",
   "status": "partial",
   "theorems": [
    "C69_code_kept",
    "C69_only_used",
    "C69_imported",
    "C69_imported_from",
    "C69_function_import_refuted",
    "C69_function_first_refuted",
    "C69_own_import_refuted"
   ],
   "note": "Proved: code kept, remaining imports used, unique and from the file or the available ones, for all files; the names used on module level are imported if the file starts with a simple line and has no imports in functions, from the right module if there is only one candidate. Missing: the other files (the code violates it, see the refuted theorems)."
  },
  {
   "property": "C70",
   "status": "proved",
   "theorems": [
    "C70_follows",
    "C70_momentary",
    "C70_bank_select_refuted"
   ],
   "note": "For presses made when the current rig has been reported, one switch held at a time."
  },
  {
   "property": "C71",
   "status": "proved",
   "theorems": [
    "C71_drawn_once",
    "C71_drawn_never",
    "C71_new_screen",
    "C71_shown",
    "C71_updated",
    "C71_updated_nothing",
    "C71_shared_refuted"
   ],
   "note": "Elements do not change their children after creation. What the elements draw is in C66, C67."
  },
  {
   "property": "C72",
   "status": "proved",
   "theorems": [
    "C72_led",
    "C72_text",
    "C72_nearest",
    "C72_no_empty_text",
    "C72_tuner",
    "C72_again",
    "C72_preview",
    "C72_no_preview",
    "C72_every_change_refuted"
   ],
   "note": "How long an announcement stays is in C47."
  },
  {
   "property": "C73",
   "status": "proved",
   "theorems": [
    "C73_follows",
    "C73_only_presses",
    "C73_reset",
    "C73_hidden",
    "C73_page_refuted",
    "C73_hidden_refuted"
   ],
   "note": "Whether the device follows the messages is not modelled (it does not report the buttons' state)."
  },
  {
   "property": "C74",
   "status": "proved",
   "theorems": [
    "C74_rig_select",
    "C74_lit",
    "C74_blinks",
    "C74_current",
    "C74_rig_up_down",
    "C74_bank_up_down",
    "C74_bank_drawn",
    "C74_bank_select",
    "C74_bank_lit",
    "C74_configured",
    "C74_unknown",
    "C74_bank_off_refuted",
    "C74_dim_on_refuted",
    "C74_text_callback_refuted"
   ],
   "note": "Texts are abstract (the numbers in them are modelled). Rig select with bank, off bank and no off rig is excluded for the text (whole_off) and refuted; bank up/down without preselection is not claimed."
  },
  {
   "property": "C75",
   "status": "partial",
   "theorems": [
    "C75_turn",
    "C75_only_banks",
    "C75_shown",
    "C75_rig_press",
    "C75_counts_shown_partial",
    "C75_keep_rig_partial",
    "C75_counts_shown_refuted",
    "C75_keep_rig_refuted",
    "C75_silent_refuted"
   ],
   "note": "Proved for all histories: what a turn sends and shows, that the shown preselection is what the device waits for, and the next rig press. Counting from the shown bank and keeping the rig hold only until a switch preselects / the encoder sends (refuted otherwise). Blink state and the preview display are left out here."
  },
  {
   "property": "C76",
   "status": "partial",
   "theorems": [
    "C76_ordered",
    "C76_as_monitored",
    "C76_read",
    "C76_queue_partial",
    "C76_paced_partial",
    "C76_lost_refuted"
   ],
   "note": "Order, completeness against the monitor and the exact behaviour of a read proved for all histories; absence of loss proved as long as each message fits beside what the last tick has left (in particular at most 11 messages per tick). The full claim is refuted by C76_lost_refuted."
  },
  {
   "property": "C77",
   "status": "partial",
   "theorems": [
    "C77_single_loop_partial",
    "C77_stopped_partial",
    "C77_crashed",
    "C77_keeps_ticking",
    "C77_returns_partial",
    "C77_faulty_start_refuted",
    "C77_overlap_refuted"
   ],
   "note": "Proved for all schedules in which run() and stop() are called one at a time; termination of the calls if no start-up raised an exception. Both restrictions are necessary (C77_overlap_refuted, C77_faulty_start_refuted)."
  },
  {
   "property": "C78",
   "status": "proved",
   "theorems": [
    "C78_recovers",
    "C78_starts",
    "C78_lease_honoured",
    "C78_device_says",
    "C78_device_answers",
    "C78_short_lease_refuted",
    "C78_last_word_refuted"
   ],
   "note": "For leases of 6 to 255 s (the emulator uses 30 s) and paces for which half a lease plus all delays is shorter than the lease; both are stated as fast_enough."
  },
  {
   "property": "C79",
   "status": "partial",
   "theorems": [
    "C79_read_back_partial",
    "C79_set_read_partial",
    "C79_mirror",
    "C79_texts_refuted",
    "C79_tempo_partial",
    "C79_tempo_refuted"
   ],
   "note": "Proved for all numeric parameters but the tempo (rounded, C79_tempo_refuted) and the morph state (set to 0 by rig changes; the pedal is scaled); refuted for the texts which the virtual device does not have (C79_texts_refuted). Rig id and rig name: C80."
  },
  {
   "property": "C80",
   "status": "partial",
   "theorems": [
    "C80_rig_known_partial",
    "C80_name_known_partial",
    "C80_names",
    "C80_loop_partial",
    "C80_press_partial",
    "C80_held_refuted",
    "C80_program_refuted"
   ],
   "note": "Proved for orderly histories (one rig switch at a time, no program changes); refuted for a bank preselected while a rig switch is held (C80_held_refuted) and after program changes (C80_program_refuted)."
  },
  {
   "property": "C81",
   "status": "partial",
   "theorems": [
    "C81_packed",
    "C81_numbers",
    "C81_texts_partial",
    "C81_data_bytes",
    "C81_texts_refuted"
   ],
   "note": "Bytes, numbers and the data byte range are proved in full; texts for well-formed texts without a leading byte order mark, refuted for the others (C81_texts_refuted)."
  },
  {
   "property": "C82",
   "status": "proved",
   "theorems": [
    "C82_detected",
    "C82_intact",
    "C82_three_refuted",
    "C82_command_refuted"
   ],
   "note": "All errors in one or two neighbouring payload bytes or in the checksum are detected, at any position of a message of any length. Wider errors and errors in the command byte are not, see the refuted theorems."
  },
  {
   "property": "C83",
   "status": "partial",
   "theorems": [
    "C83_received_partial",
    "C83_clean_partial",
    "C83_acknowledged",
    "C83_cut_refuted",
    "C83_seed_refuted"
   ],
   "note": "Proved for texts whose parts are well-formed and do not begin with a byte order mark, in particular all texts without surrogates and U+FEFF; refuted for a surrogate pair cut at a chunk boundary (C83_cut_refuted) and for the seed 2^24 (C83_seed_refuted). The acknowledgement part is proved."
  },
  {
   "property": "C84",
   "status": "partial",
   "theorems": [
    "C84_bounded_partial",
    "C84_idle_partial",
    "C84_once_partial",
    "C84_sent_partial",
    "C84_file_partial",
    "C84_request_partial",
    "C84_empty_refuted",
    "C84_slow_refuted"
   ],
   "note": "Proved for non-empty files and while no side acts with a transmission older than 5 seconds; refuted for empty files (C84_empty_refuted: endless exchange) and for slow connections (C84_slow_refuted)."
  },
  {
   "property": "C85",
   "status": "partial",
   "theorems": [
    "C85_settled_partial",
    "C85_load_partial",
    "C85_save_partial",
    "C85_roundtrip_partial",
    "C85_error_reported",
    "C85_connect_again",
    "C85_offline",
    "C85_at_once_refuted",
    "C85_empty_refuted",
    "C85_early_refuted"
   ],
   "note": "Proved if each call is made when the earlier ones are settled, for non-empty paths and contents; refuted for loads at the same time (C85_at_once_refuted), for an empty content (C85_empty_refuted), and as a guarantee that the file has arrived when saveFile is settled (C85_early_refuted)."
  },
  {
   "property": "C86",
   "status": "partial",
   "theorems": [
    "C86_forget_partial",
    "C86_kept",
    "C86_forget_refuted"
   ],
   "note": "Proved for all transmissions sent, and those received of which at least one part has arrived; refuted for those of which only the start arrives (C86_forget_refuted). C86_kept is the full second half."
  },
  {
   "property": "C87",
   "status": "partial",
   "theorems": [
    "C87_saved",
    "C87_new",
    "C87_deleted",
    "C87_renamed_partial",
    "C87_unchanged",
    "C87_back",
    "C87_once",
    "C87_apart",
    "C87_rename_refuted"
   ],
   "note": "Proved for all operations; that no preset is lost without confirmation is refuted for renaming to a name which is taken (C87_rename_refuted)."
  },
  {
   "property": "C88",
   "status": "partial",
   "theorems": [
    "C88_shown",
    "C88_same_partial",
    "C88_interval_refuted",
    "C88_interval_shown_refuted",
    "C88_empty_refuted"
   ],
   "note": "Proved for all options except debugStatsInterval (for this one, if it is not set to 2000, only that controller and emulator agree), for number fields which are not emptied; the rest is refuted (C88_interval_refuted, C88_interval_shown_refuted, C88_empty_refuted)."
  },
  {
   "property": "C89",
   "status": "partial",
   "theorems": [
    "C89_exact_partial",
    "C89_only",
    "C89_position_refuted"
   ],
   "note": "Proved exactly, in both directions, for displays given by name; refuted for displays given by position, where the check throws (C89_position_refuted)."
  },
  {
   "property": "C90",
   "status": "partial",
   "theorems": [
    "C90_clean_partial",
    "C90_saved_partial",
    "C90_opening_partial",
    "C90_refused",
    "C90_tabs",
    "C90_applied_partial",
    "C90_marker_partial",
    "C90_race_refuted",
    "C90_mix_refuted",
    "C90_reload_refuted",
    "C90_browser_refuted",
    "C90_tabs_refuted",
    "C90_marker_refuted"
   ],
   "note": "Proved for histories in which nothing is changed while a save is under way, and for opening by the menus; the other cases are refuted (C90_race_refuted, C90_mix_refuted, C90_reload_refuted, C90_browser_refuted, C90_tabs_refuted, C90_marker_refuted)."
  },
  {
   "property": "C91",
   "status": "partial",
   "theorems": [
    "C91_edited_partial",
    "C91_no_call_refuted",
    "C91_page_refuted",
    "C91_shared_refuted",
    "C91_taken_refuted",
    "C91_pages_refuted"
   ],
   "note": "Proved for files whose actions are calls (or variables for calls) with plain pages, and for new variables or the only use of one; the other cases are refuted (C91_no_call_refuted, C91_pages_refuted, C91_page_refuted, C91_shared_refuted, C91_taken_refuted)."
  },
  {
   "property": "C92",
   "status": "partial",
   "theorems": [
    "C92_used_kept",
    "C92_front",
    "C92_move",
    "C92_remove",
    "C92_create",
    "C92_drag",
    "C92_resize",
    "C92_fields",
    "C92_name",
    "C92_parameter",
    "C92_type",
    "C92_nothing",
    "C92_open_partial",
    "C92_dot",
    "C92_apply_partial",
    "C92_close_partial",
    "C92_open_refuted",
    "C92_drag_refuted",
    "C92_deep_refuted",
    "C92_identifier_refuted",
    "C92_close_refuted"
   ],
   "note": "Opening is proved for dots of eight by eight, unique names for elements directly in the root, moving for positions which are numbers or known variables, closing for the elements; the other cases are refuted (C92_open_refuted, C92_drag_refuted, C92_deep_refuted, C92_identifier_refuted, C92_close_refuted)."
  },
  {
   "property": "C93",
   "status": "partial",
   "theorems": [
    "C93_keeps_partial",
    "C93_others",
    "C93_enter",
    "C93_apply",
    "C93_select",
    "C93_selectable",
    "C93_new",
    "C93_inputs",
    "C93_default_refuted",
    "C93_number_refuted",
    "C93_choice_refuted",
    "C93_text_refuted",
    "C93_order_refuted",
    "C93_line_refuted",
    "C93_positional_refuted",
    "C93_backslash_refuted"
   ],
   "note": "Opening and applying is proved for values the inputs can show and parameters whose default in the dialog is the one of Python, literals for texts without backslashes; the other cases are refuted. The rest (others unchanged, entered values, take-over, valid calls) is proved without such restrictions."
  },
  {
   "property": "C94",
   "status": "partial",
   "theorems": [
    "C94_hanging_refuted",
    "C94_message_refuted"
   ],
   "note": "Sequential execution, order, no loss, completion and reporting are proved for all interleavings, provided that showing a message does not throw and routes end; both provisos are necessary (refutations)."
  },
  {
   "property": "C95",
   "status": "partial",
   "theorems": [
    "C95_round_trip",
    "C95_controller_partial",
    "C95_default",
    "C95_example_partial",
    "C95_template_partial",
    "C95_preset_partial",
    "C95_folder",
    "C95_home",
    "C95_plus_refuted",
    "C95_question_refuted",
    "C95_hash_refuted",
    "C95_percent_refuted",
    "C95_presets_refuted"
   ],
   "note": "Proved for all names without plus sign, question mark and hash mark (controllers: hash marks are allowed except at the end), presets also without percent sign (except for escapes of reserved characters), on pages with or without a query; every one of these restrictions is necessary (refutations)."
  },
  {
   "property": "C96",
   "status": "partial",
   "theorems": [
    "C96_once_partial",
    "C96_found_partial",
    "C96_failed_partial",
    "C96_told_partial",
    "C96_clean_partial",
    "C96_same_name_refuted",
    "C96_twice_refuted",
    "C96_pairs_partial",
    "C96_client_partial",
    "C96_virtual_refuted",
    "C96_choice_partial",
    "C96_race_refuted"
   ],
   "note": "Proved for ports with different names; choices are proved to stay if no search is running. The other cases are refuted."
  },
  {
   "property": "C97",
   "status": "partial",
   "theorems": [
    "C97_effect_partial",
    "C97_shown",
    "C97_remove_refuted",
    "C97_duplicate_refuted",
    "C97_name_partial",
    "C97_name_refuted",
    "C97_color_picked",
    "C97_color_shown"
   ],
   "note": "Removing is proved for pages with different IDs which have not been edited since the rows were created; names are proved to differ from those of actions of the same type. Other cases are refuted. Numbers in IDs are not rounded in the model (JavaScript rounds from 2^53 on)."
  },
  {
   "property": "C98",
   "status": "partial",
   "theorems": [
    "C98_boost_partial",
    "C98_shown_partial",
    "C98_fixed",
    "C98_loud_refuted",
    "C98_unseen_refuted",
    "C98_rig_refuted"
   ],
   "note": "Proved for rigs below the boost volume whose volume is known; the other cases are refuted. Floating point numbers are not modelled; answers are not lost. The action is used on a plain client (the rig volume is not part of the bidirectional protocol)."
  },
  {
   "property": "C99",
   "status": "partial",
   "theorems": [
    "C99_list",
    "C99_ignored",
    "C99_shown_partial",
    "C99_window",
    "C99_paused",
    "C99_reload",
    "C99_restored_partial",
    "C99_restore_refuted",
    "C99_pause_refuted",
    "C99_prefix_refuted"
   ],
   "note": "That nothing else is hidden is proved for complete MIDI messages, and that removed ones are shown again if no other ignored message has the same name; refuted otherwise. The texts of bytes and values in the rows are not modelled."
  },
  {
   "property": "C100",
   "status": "partial",
   "theorems": [
    "C100_one",
    "C100_kept",
    "C100_some_partial",
    "C100_click",
    "C100_tabs",
    "C100_panel",
    "C100_source",
    "C100_some_refuted"
   ],
   "note": "That one tab is seen is proved unless the one seen last is not there any more, and refuted otherwise. Contents of the tabs are not part of this property (C90, C99)."
  },
  {
   "property": "C101",
   "status": "partial",
   "theorems": [
    "C101_open",
    "C101_close",
    "C101_button",
    "C101_enter",
    "C101_seen_partial",
    "C101_seen_refuted",
    "C101_late_refuted"
   ],
   "note": "Proved for histories where no event comes between opening a popup and its timeout (of 0 ms); that open popups are seen is proved if only one is open at a time, and refuted otherwise. What is in the popups is not part of this property."
  },
  {
   "property": "C102",
   "status": "partial",
   "theorems": [
    "C102_listing",
    "C102_choose",
    "C102_up",
    "C102_again_partial",
    "C102_same_partial",
    "C102_nearest_partial",
    "C102_first",
    "C102_again_refuted",
    "C102_nearest_refuted"
   ],
   "note": "Opening again is proved for trees where entries of one folder have different texts, and refuted otherwise; falling back to the next folder above is proved if no text of the lost way appears there. Buttons, the info panel and loading of the entries are not part of this property."
  },
  {
   "property": "C103",
   "status": "partial",
   "theorems": [
    "C103_sent_partial",
    "C103_paired_partial",
    "C103_text",
    "C103_paired_refuted",
    "C103_bytes_refuted"
   ],
   "note": "Proved for switches without hold actions and overrides, and messages of bytes; that each message is followed by that for releasing is proved if the action is not enabled or disabled while held, and refuted otherwise. What is shown is not part of this property."
  },
  {
   "property": "C104",
   "status": "partial",
   "theorems": [
    "C104_mouse",
    "C104_touch_partial",
    "C104_clicks_partial",
    "C104_wheel",
    "C104_clicks_refuted",
    "C104_touch_refuted"
   ],
   "note": "Clicks are proved to push once if the controller polls after each event of the mouse, and refuted otherwise; touches if none is canceled and not mixed with the mouse. Mouse events browsers send in addition after touches are not modelled."
  },
  {
   "property": "C105",
   "status": "partial",
   "theorems": [
    "C105_mark",
    "C105_apply",
    "C105_only",
    "C105_text_partial",
    "C105_shown_partial",
    "C105_text_refuted",
    "C105_shown_refuted"
   ],
   "note": "Mark, applying and what changes the configuration are proved for all histories; contents if nothing happens before the timeouts, and refuted otherwise."
  },
  {
   "property": "C106",
   "status": "partial",
   "theorems": [
    "C106_text",
    "C106_range",
    "C106_direct",
    "C106_accept",
    "C106_step_partial",
    "C106_unknown_refuted",
    "C106_first_refuted",
    "C106_volume",
    "C106_volume_order",
    "C106_zero_refuted"
   ],
   "note": "Range, texts and volumes are proved in full; steps only for a known transposition without preselection, refuted otherwise."
  },
  {
   "property": "C107",
   "status": "partial",
   "theorems": [
    "C107_text",
    "C107_words",
    "C107_fits",
    "C107_break",
    "C107_space_refuted",
    "C107_empty_refuted"
   ],
   "note": "Words, fitting lines and breaks are proved for all texts and measures; that a text which fits stays in one line, as it is, is refuted."
  },
  {
   "property": "C108",
   "status": "partial",
   "theorems": [
    "C108_time",
    "C108_repeat",
    "C108_others",
    "C108_shown_partial",
    "C108_zero_refuted",
    "C108_empty_refuted",
    "C108_missing_refuted"
   ],
   "note": "What the firmware uses after any changes and what stays is proved for switches of the configuration; what is shown for hold times above 0. Time 0, an empty field and switches without actions are refuted."
  },
  {
   "property": "C109",
   "status": "partial",
   "theorems": [
    "C109_runs",
    "C109_first",
    "C109_reported_partial",
    "C109_reported_refuted",
    "C109_explore_refuted",
    "C109_console",
    "C109_explore",
    "C109_order",
    "C109_drive"
   ],
   "note": "All parts are proved for all failing steps, except that errors before display.py is read (config.py, communication.py) are not handed to the bridge, which is refuted. What the bridge does with the error is compiled code and not modelled."
  },
  {
   "property": "C110",
   "status": "proved",
   "theorems": [
    "C110_shown",
    "C110_only",
    "C110_order",
    "C110_click"
   ],
   "note": "Complete characterisation of what can be seen after any history. The text itself (inserted as HTML) and the duration of fading are not modelled."
  },
  {
   "property": "C111",
   "status": "partial",
   "theorems": [
    "C111_fill",
    "C111_size",
    "C111_size_refuted",
    "C111_words",
    "C111_silent",
    "C111_lines",
    "C111_balance"
   ],
   "note": "All parts are proved for exact numbers (floats are exact up to 2^53); that less than 1024 of a unit is shown is refuted. The percentage of free memory is not modelled."
  },
  {
   "property": "C112",
   "status": "partial",
   "theorems": [
    "C112_all",
    "C112_batch",
    "C112_rate_partial",
    "C112_rate_refuted"
   ],
   "note": "Lists are proved for all histories, rates if measured after exactly one second; for late timers the rates are refuted."
  },
  {
   "property": "C113",
   "status": "partial",
   "theorems": [
    "C113_rig",
    "C113_rig_total",
    "C113_rig_distinct",
    "C113_bank",
    "C113_button",
    "C113_distinct",
    "C113_slot",
    "C113_bank_refuted",
    "C113_slot_refuted"
   ],
   "note": "Names of rig and bank selection, effect buttons and slots are proved for all arguments without braces and $; that different function names stay different is proved; that different calls have different names is refuted for banks and spillover. Names of other actions are not modelled."
  },
  {
   "property": "C114",
   "status": "partial",
   "theorems": [
    "C114_hears",
    "C114_sends",
    "C114_shown",
    "C114_apart",
    "C114_range",
    "C114_starts_refuted",
    "C114_all_refuted",
    "C114_text_refuted"
   ],
   "note": "Proved for all histories in which channels from 1 to 16 are typed, and All for the input. For other texts it is refuted: other numbers or All as output keep the emulator from starting, other texts are taken for All."
  },
  {
   "property": "C115",
   "status": "partial",
   "theorems": [
    "C115_shown",
    "C115_used",
    "C115_chosen",
    "C115_others",
    "C115_deviance_partial",
    "C115_label",
    "C115_label_others",
    "C115_once",
    "C115_empty_refuted",
    "C115_note_refuted",
    "C115_deviance_refuted",
    "C115_font_refuted"
   ],
   "note": "What the firmware uses, what is shown and what stays is proved for the fields of tuners and for the layout of labels. Cleared fields of tuners, the lists for mappings and the rest of the note's layout are refuted."
  },
  {
   "property": "C116",
   "status": "partial",
   "theorems": [
    "C116_range",
    "C116_bug",
    "C116_fade",
    "C116_end",
    "C116_rig",
    "C116_time_refuted",
    "C116_new_rig_refuted",
    "C116_checkbox_refuted"
   ],
   "note": "Course and end of the fade, the range, the buttons of rigs and what happens with the simulated bug are proved for all histories. Duration, selecting another rig during a fade and the checkbox are refuted."
  },
  {
   "property": "C117",
   "status": "proved",
   "theorems": [
    "C117_offered",
    "C117_once",
    "C117_missing"
   ],
   "note": "Parsing of the files, parameters and comments are not modelled: a file is the list of its module-level statements. Paths with an apostrophe (pasted into Python code) are outside of the model."
  },
  {
   "property": "C118",
   "status": "partial",
   "theorems": [
    "C118_offered",
    "C118_sorted",
    "C118_once",
    "C118_available_partial",
    "C118_wide_refuted"
   ],
   "note": "Everything is proved for metadata where the first parameters have values or at most 101 numbers (or additional values); C118_available_partial says that this is exactly when there is a list, C118_wide_refuted that otherwise nothing is offered. Order by ASCII codes."
  },
  {
   "property": "C119",
   "status": "partial",
   "theorems": [
    "C119_one",
    "C119_chosen_partial",
    "C119_received_partial",
    "C119_tab_partial",
    "C119_virtual_refuted",
    "C119_late_refuted"
   ],
   "note": "C119_one is unconditional. The rest for names not beginning with virtual (C119_chosen_partial, C119_tab_partial) and ports which are there from the start (C119_received_partial); otherwise it is false (C119_virtual_refuted, C119_late_refuted). Choices are executed one after the other; scanning is C96."
  },
  {
   "property": "C120",
   "status": "partial",
   "theorems": [
    "C120_color",
    "C120_kept",
    "C120_apart_partial",
    "C120_mixed_refuted",
    "C120_icons"
   ],
   "note": "C120_apart_partial is about pages with different texts pager+page; C120_mixed_refuted shows that others share a color. The rest is complete. Tooltips and colors set for a page are not modelled."
  },
  {
   "property": "C121",
   "status": "proved",
   "theorems": [
    "C121_exact",
    "C121_firmware",
    "C121_request"
   ],
   "note": "For the comparison with the firmware, manufacturer ids have three bytes (others are never accepted by either). What is done with the result is C96 and C119."
  },
  {
   "property": "C122",
   "status": "partial",
   "theorems": [
    "C122_received_partial",
    "C122_shown_partial",
    "C122_others",
    "C122_once",
    "C122_check_boxes",
    "C122_number_refuted",
    "C122_default_refuted",
    "C122_sum_refuted"
   ],
   "note": "Proved for all parameters but numbers, if the default is the one of the code; the rest is violated by the code (C122_number_refuted, C122_default_refuted, C122_sum_refuted)."
  },
  {
   "property": "C123",
   "status": "partial",
   "theorems": [
    "C123_actions",
    "C123_once",
    "C123_edited",
    "C123_selected_partial",
    "C123_other_refuted",
    "C123_ports_partial",
    "C123_stale_refuted",
    "C123_presets",
    "C123_single"
   ],
   "note": "Actions, presets and the first opening of a list of controllers are proved; later openings and lists with one action are violated by the code (C123_stale_refuted, C123_other_refuted)."
  },
  {
   "property": "C124",
   "status": "partial",
   "theorems": [
    "C124_offered",
    "C124_chosen",
    "C124_needed",
    "C124_again",
    "C124_others",
    "C124_none_refuted",
    "C124_variable_refuted"
   ],
   "note": "All but the last sentence is proved; that is violated by the code (C124_none_refuted, C124_variable_refuted)."
  },
  {
   "property": "C125",
   "status": "partial",
   "theorems": [
    "C125_device_partial",
    "C125_comment_refuted",
    "C125_listed",
    "C125_unnamed",
    "C125_found",
    "C125_devices",
    "C125_port_refuted"
   ],
   "note": "The device is proved for texts which mention only one of the modules; otherwise it is violated by the code (C125_comment_refuted). C125_port_refuted shows why the kind is needed."
  }
 ]
}