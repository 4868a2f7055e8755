{
 "claims": [
  {
   "property": "C01",
   "status": "partial",
   "theorems": [
    "C01_unpack_unsigned_partial",
    "C01_unpack_unsigned_refuted"
   ],
   "note": "The full claim is false: signals longer than 32 bits whose least significant bit is not at a byte border lose up to 7 bits. Proved for all other layouts, with the exact result for the rest."
  },
  {
   "property": "C02",
   "status": "partial",
   "theorems": [
    "C02_unpack_signed_partial",
    "C02_unpack_signed_refuted"
   ],
   "note": "Proved for lengths 1..32. Beyond 32 bits the emitted shift is undefined with the default helper types."
  },
  {
   "property": "C03",
   "status": "partial",
   "theorems": [
    "C03_pack_layout_partial",
    "C03_pack_layout_refuted"
   ],
   "note": "Proved when the emitted maximal DLC is at least the DLC of the message; the scanner can emit a smaller one (C29), then old bits stay."
  },
  {
   "property": "C04",
   "status": "partial",
   "theorems": [
    "C04_unpack_pack_partial",
    "C04_unpack_pack_refuted"
   ],
   "note": "Proved for layouts of C01/C02 and a sufficient maximal DLC."
  },
  {
   "property": "C05",
   "status": "partial",
   "theorems": [
    "C05_pack_unpack_partial",
    "C05_pack_unpack_refuted",
    "C56_exact_refuted"
   ],
   "note": "Proved for each signal with a layout of C01/C02 that Pack takes over from the struct, and a sufficient maximal DLC. Refuted for a 40-bit signal off a byte border and for a scaled signal with conversion switched on."
  },
  {
   "property": "C06",
   "status": "partial",
   "theorems": [
    "C06_pack_isolated_partial",
    "C06_unpack_isolated",
    "C06_checksum_refuted"
   ],
   "note": "Unpack part in full for signed lengths up to 32. Pack part for all signals, with a sufficient maximal DLC; bits of the checksum are excluded, which depends on all others by design (refuted without that)."
  },
  {
   "property": "C07",
   "status": "partial",
   "theorems": [
    "C07_old_buffer_partial",
    "C07_old_buffer_refuted"
   ],
   "note": "Proved for a sufficient maximal DLC; refuted for a file with one message."
  },
  {
   "property": "C08",
   "status": "proved",
   "theorems": [
    "C08_unpack_reads_frame",
    "C08_pack_writes_frame"
   ],
   "note": "Accesses outside of an array have no result in the C semantics."
  },
  {
   "property": "C09",
   "status": "partial",
   "theorems": [
    "C09_initial_value_partial",
    "C09_initial_value_refuted"
   ],
   "note": "The exact result is the disjunction of initial value and signal, so the claim is false for signal bits that are 1 in the initial value."
  },
  {
   "property": "C10",
   "status": "partial",
   "theorems": [
    "C10_error_text_partial",
    "C10_error_text_refuted",
    "C10_wrapped_start_refuted"
   ],
   "note": "For bit numbers the builder can count (below 512, or below 65536 in frames of at most 63 bytes) the emitted source contains the assignment with the error text and the line does not parse. Missing because false: start bits above 511 in a 64-byte frame and above 65535 produce expressions for other bits without any error text (refuted theorems). Lengths above 64 are not covered."
  },
  {
   "property": "C11",
   "status": "partial",
   "theorems": [
    "C11_in_bounds_partial",
    "C11_in_bounds_refuted"
   ],
   "note": "Exact characterisation for lengths 1..64 and countable bit numbers: the builder works through iff no Motorola signal starts inside the frame and leaves it. Missing because false: such a signal makes the generator index its table out of bounds (refuted theorem, from a DBC text)."
  },
  {
   "property": "C12",
   "status": "proved",
   "theorems": [
    "C12_flavours_agree"
   ],
   "note": ""
  },
  {
   "property": "C13",
   "status": "proved",
   "theorems": [
    "C13_identity",
    "C13_pack_line",
    "C13_unpack_line",
    "C13_declared_line",
    "C01_unpack_unsigned_partial",
    "C02_unpack_signed_partial"
   ],
   "note": "C13_identity is about every scanned message; the return value of Unpack is part of the C01 and C02 theorems. C13_pack_line, C13_unpack_line and C13_declared_line start from the message line in the text of a file (form of the lines as in C51; other forms are C27)."
  },
  {
   "property": "C14",
   "status": "partial",
   "theorems": [
    "C14_raw_type_partial",
    "C14_raw_type_refuted"
   ],
   "note": "Proved for every signal of every data base that is read. Unsigned signals of 63 and 64 bits and signed ones of 64 bits are undefined behaviour in the generator (refuted theorem)."
  },
  {
   "property": "C15",
   "status": "partial",
   "theorems": [
    "C15_phys_type_partial",
    "C15_phys_type_refuted"
   ],
   "note": "Proved for positive factors, and for negative ones of unsigned signals with an offset of at most 0; refuted for other negative factors."
  },
  {
   "property": "C16",
   "status": "partial",
   "theorems": [
    "C16_fromS_partial",
    "C16_fromS_refuted"
   ],
   "note": "Proved for integer scaling when the C arithmetic in the promoted type of the field does not leave its range; refuted beyond."
  },
  {
   "property": "C17",
   "status": "partial",
   "theorems": [
    "C17_roundtrip_partial",
    "C17_roundtrip_refuted"
   ],
   "note": "As C16, with the same condition for the way back; refuted for negative factors with an unsigned physical type."
  },
  {
   "property": "C18",
   "status": "partial",
   "theorems": [
    "C18_own_scaling_partial",
    "C18_own_scaling_refuted"
   ],
   "note": "Proved when all scaled signals of the name have the same scaling; refuted for two messages with signals of the same name."
  },
  {
   "property": "C19",
   "status": "partial",
   "theorems": [
    "C19_undisturbed_partial",
    "C19_undisturbed_refuted"
   ],
   "note": "Proved for histories of any length and unsigned counters of at most 30 bits that are neither scaled nor the checksum; refuted for signed counters."
  },
  {
   "property": "C20",
   "status": "partial",
   "theorems": [
    "C20_lost_frames_partial",
    "C20_lost_frames_refuted"
   ],
   "note": "Proved for unsigned counters of at most 30 bits; refuted for signed counters."
  },
  {
   "property": "C21",
   "status": "partial",
   "theorems": [
    "C21_flags_latest_partial",
    "C21_sticky_refuted"
   ],
   "note": "The code reassigns the flags on every frame: refuted. Proved instead: what each flag says after any history."
  },
  {
   "property": "C22",
   "status": "partial",
   "theorems": [
    "C22_checksum_passes_partial",
    "C22_checksum_passes_refuted"
   ],
   "note": "The receiver hashes the frame including the checksum: proved for hash functions that do not depend on the checksum signal, refuted in general."
  },
  {
   "property": "C23",
   "status": "proved",
   "theorems": [
    "C23_bookkeeping"
   ],
   "note": ""
  },
  {
   "property": "C24",
   "status": "proved",
   "theorems": [
    "C24_receive_mapped",
    "C24_receive_frame",
    "C24_receive_unmapped"
   ],
   "note": "any generated utility source (whole driver or one node), any tree size; names are identifiers of bounded length, _id and recid are no macros"
  },
  {
   "property": "C25",
   "status": "partial",
   "theorems": [
    "C25_every_message_reached_partial",
    "C25_every_message_reached_refuted"
   ],
   "note": "holds for distinct IDs; refuted for a standard and an extended frame with the same number"
  },
  {
   "property": "C26",
   "status": "proved",
   "theorems": [
    "C26_structs_of_messages",
    "C26_nodes",
    "C26_equal_ids_refuted"
   ],
   "note": "distinct IDs as in the statement; the refutation shows that they are needed"
  },
  {
   "property": "C27",
   "status": "partial",
   "theorems": [
    "C27_message_line_partial",
    "C27_message_line_refuted"
   ],
   "note": "Proved for IDs of 32 bits and lengths of 8 bits; larger numbers are cut (length 264 is accepted as 8)."
  },
  {
   "property": "C28",
   "status": "proved",
   "theorems": [
    "C28_signals_of_message"
   ],
   "note": "A transmitter list line ends the message; signals after it are dropped like those after a rejected message line."
  },
  {
   "property": "C29",
   "status": "partial",
   "theorems": [
    "C29_max_dlc_partial",
    "C29_max_dlc_refuted"
   ],
   "note": "The last message and messages followed by a transmitter list are not counted."
  },
  {
   "property": "C30",
   "status": "partial",
   "theorems": [
    "C30_entries_isolated_partial",
    "C30_entries_isolated_refuted"
   ],
   "note": "Proved for entries that name existing messages with distinct IDs; unknown IDs change the last message."
  },
  {
   "property": "C31",
   "status": "partial",
   "theorems": [
    "C31_value_table_partial",
    "C31_value_table_refuted"
   ],
   "note": "Proved for unscaled signals; tables of scaled signals are dropped."
  },
  {
   "property": "C32",
   "status": "partial",
   "theorems": [
    "C32_checksum_marker_partial",
    "C32_checksum_marker_refuted"
   ],
   "note": "A colon soon after the marker hides it."
  },
  {
   "property": "C33",
   "status": "proved",
   "theorems": [
    "C33_signals_ordered",
    "isort_sorts_by"
   ],
   "note": ""
  },
  {
   "property": "C34",
   "status": "partial",
   "theorems": [
    "C34_transmitters_partial",
    "C34_transmitters_refuted"
   ],
   "note": "One letter transmitters are dropped; transmitter lists for ID 0 are ignored."
  },
  {
   "property": "C35",
   "status": "proved",
   "theorems": [
    "C35_names_are_identifiers",
    "C35_empty_name_refused",
    "C35_accepted_name_is_identifier"
   ],
   "note": ""
  },
  {
   "property": "C36",
   "status": "proved",
   "theorems": [
    "C36_options_last_wins",
    "C36_order_irrelevant",
    "C36_unknown_ignored"
   ],
   "note": ""
  },
  {
   "property": "C37",
   "status": "partial",
   "theorems": [
    "C37_other_files_kept_partial",
    "C37_numbered_directory_unused",
    "C37_earlier_files_kept_refuted"
   ],
   "note": "Files outside the run's own list are kept. Refuted in general: without -rw a fresh numbered directory is created but stays empty, and the files go over those of the earlier run."
  },
  {
   "property": "C38",
   "status": "proved",
   "theorems": [
    "C38_only_listed_files",
    "C38_listed_files_written",
    "C38_flags_drop_files",
    "C38_flags_keep_utilities",
    "C38_node_names_plain"
   ],
   "note": "Runs that end normally; a listed file appears unless the file system refuses it."
  },
  {
   "property": "C39",
   "status": "partial",
   "theorems": [
    "C39_own_text_partial",
    "C39_text_with_failures_partial",
    "C39_run_texts_partial",
    "C39_own_text_refuted"
   ],
   "note": "Proved when every file can be opened, plus the exact text after failures. Refuted: the text of a file that cannot be opened goes into the next file."
  },
  {
   "property": "C40",
   "status": "partial",
   "theorems": [
    "C40_source_guard_partial",
    "C40_util_guard_partial",
    "C40_calls_declared_partial",
    "C40_headers_included_partial",
    "C40_call_refuted"
   ],
   "note": "Names and texts as in driver, header_ok and utility. Refuted for a message name with a hyphen, which the scanner accepts: Receive then calls a function that is declared nowhere. The monitor files have no version guards; their names are covered by C54."
  },
  {
   "property": "C41",
   "status": "partial",
   "theorems": [
    "C41_comments_partial",
    "C41_comments_refuted"
   ],
   "note": "Every comment line is emitted behind //, and without backslashes in the data base's texts the declared struct does not depend on comments. Refuted in general: a comment ending in a backslash swallows the declaration after it."
  },
  {
   "property": "C42",
   "status": "partial",
   "theorems": [
    "C42_struct_padding_partial",
    "C42_struct_padding_refuted",
    "C42_factor_refuted"
   ],
   "note": "For messages that fit their frames the run ends normally exactly when the expected-counter declaration fits the comment column, else it throws std::length_error. Refuted for accepted files: a 24-character rolling counter throws, an integer factor outside int is undefined behaviour."
  },
  {
   "property": "C43",
   "status": "partial",
   "theorems": [
    "C43_unpack_lines_partial",
    "C43_pack_lines_partial",
    "C43_define_lines_partial",
    "C43_pack_lines_refuted",
    "C43_define_lines_refuted"
   ],
   "note": "Proved for the assignment lines of Unpack and Pack when the names of one byte fit the line buffer, and for the macro lines of messages and value tables in the header when texts have at most 1000 characters. Refuted in general: 260 signals in one byte give a line that is cut off, and a description of 4400 characters shortens the name in the guard of its macro. Other lines (comments) are not covered."
  },
  {
   "property": "C44",
   "status": "partial",
   "theorems": [
    "C44_printed_number_partial",
    "C44_printed_number_refuted"
   ],
   "note": "Proved for all finite doubles. An infinite factor is accepted and printed inf.0 (refuted theorem)."
  },
  {
   "property": "C45",
   "status": "partial",
   "theorems": [
    "C45_version_partial",
    "C45_version_refuted"
   ],
   "note": "Proved for numbers below 2^32."
  },
  {
   "property": "C46",
   "status": "partial",
   "theorems": [
    "C46_cycle_time_partial",
    "C46_cycle_time_refuted"
   ],
   "note": "Proved for numbers below 2^32 and distinct message IDs. Refuted for the number 2^32."
  },
  {
   "property": "C47",
   "status": "partial",
   "theorems": [
    "C47_comments_partial",
    "C47_comments_refuted",
    "C47_bytes_refuted"
   ],
   "note": "Empty inner lines are doubled, and bytes above 127 at the end of an inner line are lost; inner lines must end in a visible ASCII character and not look like another entry."
  },
  {
   "property": "C48",
   "status": "partial",
   "theorems": [
    "C48_value_macros_partial",
    "C48_first_wins_partial",
    "C48_meeting_names_refuted"
   ],
   "note": "Proved for macro names that the header defines once, and for repeated names that the first entry in the order of the header decides. Refuted in general: entries of different messages can lead to the same name."
  },
  {
   "property": "C49",
   "status": "proved",
   "theorems": [
    "C49_one_separator",
    "C49_shown_file_name"
   ],
   "note": ""
  },
  {
   "property": "C50",
   "status": "proved",
   "theorems": [
    "C50_bit_fields",
    "C50_unpack_same",
    "C12_flavours_agree"
   ],
   "note": "Stated on the struct that the mini C front end reads in the emitted header; hypotheses: no backslash in texts of the data base and no entry of a value table called like a switch."
  },
  {
   "property": "C51",
   "status": "partial",
   "theorems": [
    "C51_signal_line_partial",
    "C51_file_partial",
    "C51_accepted_partial",
    "C51_tiny_refuted",
    "C51_unit_refuted",
    "C51_comment_refuted",
    "C51_types_refuted"
   ],
   "note": "Proved for printed declarations without colons in units and with factor and offset not below 1e-9. Refuted: a tiny factor discards the offset, a unit with a colon loses the signal, a comment of a signal with a colon between blanks is read as a signal line with undefined behaviour, large ranges overflow."
  },
  {
   "property": "C52",
   "status": "partial",
   "theorems": [
    "C52_names_partial",
    "C52_each_once_partial",
    "C52_others_kept_partial",
    "C52_program_partial",
    "C52_clash_refuted"
   ],
   "note": "The exact list of names is proved for every driver. Each is defined once when the names built from the data base differ; refuted in general: a message called DRV_VALIDATE redefines the macro that limits lengths."
  },
  {
   "property": "C53",
   "status": "partial",
   "theorems": [
    "C53_program_partial",
    "C53_entries_partial",
    "C53_unpack_partial",
    "C53_pack_partial",
    "C53_roundtrip_partial",
    "C53_basic",
    "C53_wide_refuted"
   ],
   "note": "Proved with signal conversion off (with conversion: C56), with counters, checksums and monitors on or off, for the layouts C01 to C03 allow; scanning and generation are proved to succeed for lengths up to 62 and scalings inside int. Comments, value tables and attributes may be there if what they lead to fits into the emitted code. Refuted for a signal of 40 bits off a byte border."
  },
  {
   "property": "C54",
   "status": "proved",
   "theorems": [
    "C54_unpack_calls",
    "C54_monitor_header",
    "C54_monitor_source",
    "C54_monitor_includes"
   ],
   "note": "Names are identifiers of at most 1000 characters; the call is proved for messages with signals that need an Unpack body, in a driver as C01 describes it."
  },
  {
   "property": "C55",
   "status": "proved",
   "theorems": [
    "C55_config_switches",
    "C55_config_default",
    "C55_common_types",
    "C55_frame_monitor",
    "C55_tested_switches"
   ],
   "note": "The driver name is an identifier of at most 1000 characters, message names likewise."
  },
  {
   "property": "C56",
   "status": "partial",
   "theorems": [
    "C56_unpack_partial",
    "C56_pack_partial",
    "C56_roundtrip_partial",
    "C56_smallest_type",
    "C56_exact_refuted",
    "C56_negative_refuted"
   ],
   "note": "Integer scalings are exact; other physical values are within an explicit tolerance of factor * raw + offset, and Pack recovers the raw value or the next one towards zero. Refuted without that step: a frame changes when it is unpacked and packed again. Counters, checksums and monitors may be on. Refuted for negative integer factors, whose type is chosen as if they were positive. Missing: scaled checksums, overflows."
  },
  {
   "property": "C57",
   "status": "partial",
   "theorems": [
    "C57_outline_partial",
    "C57_table_refuted",
    "C41_comments_refuted"
   ],
   "note": "Proved when no text of the data base contains a backslash and no entry of a value table has the name of a switch. Refuted without these: such an entry changes the prototypes behind the configuration, a backslash swallows a declaration."
  },
  {
   "property": "C58",
   "status": "partial",
   "theorems": [
    "C58_members_partial",
    "C58_counter_refuted",
    "C58_monitor_refuted",
    "C58_same_name_refuted"
   ],
   "note": "Exact condition for messages whose signals lead to different names. Refuted in general: a scaled rolling counter has its physical value declared twice, a signal called mon1 meets the monitor, and repeated signal names are accepted."
  },
  {
   "property": "C59",
   "status": "partial",
   "theorems": [
    "C59_receive_partial",
    "C59_receive_phys_partial",
    "C59_ignored_partial",
    "C59_network_partial",
    "C59_network_phys_partial",
    "C59_struct_partial",
    "C59_written",
    "C59_equal_ids_refuted"
   ],
   "note": "Proved for different frame numbers, with signal conversion on or off, counters, checksums and monitors as in C53 and C56. Refuted for a standard and an extended frame with the same number: the frame of the one arrives in the member of the other. The list of members is proved for headers without backslashes."
  },
  {
   "property": "C60",
   "status": "partial",
   "theorems": [
    "C60_driver_partial",
    "C60_utilities_partial",
    "C60_receivers",
    "C60_programs_partial",
    "C60_delivers_partial",
    "C60_delivers_phys_partial",
    "C60_ignores_partial",
    "C60_network_partial",
    "C60_case_refuted"
   ],
   "note": "Proved from the command line and the DBC file in the file system to calls of Receive compiled from the files that are left, under the conditions of C53 and C59, with signal conversion on or off, and for two runs on the same file whose programs send and receive. Refuted for nodes whose names differ in case only: the files of the last node replace those of the others."
  },
  {
   "property": "C61",
   "status": "partial",
   "theorems": [
    "C61_compare_partial",
    "C61_decoded_partial",
    "C61_sent_partial",
    "C61_decoded_phys_partial",
    "C61_sent_phys_partial",
    "C61_received_partial",
    "C61_received_phys_partial",
    "C61_network_partial",
    "C61_network_phys_partial",
    "C61_compare_refuted",
    "C61_long_refuted"
   ],
   "note": "Proved in any struct, after Unpack and Receive and between two programs, with and without signal conversion, for unscaled signals and entries below 2^31, and up to 2^32 in unsigned signals of at most 32 bits. Refuted for the entry 2147483648 and for entries from 2^31 in longer signals."
  },
  {
   "property": "C62",
   "status": "partial",
   "theorems": [
    "C62_consts_partial",
    "C62_cycle_partial",
    "C62_cycle_value_partial",
    "C62_uncycled_partial",
    "C62_reports_partial",
    "C62_reports_phys_partial",
    "C62_cycle_refuted",
    "C62_uncycled_refuted"
   ],
   "note": "Proved for files whose generated macro names are different and cycle times below 2^32; what Pack reports, for messages with signals, with and without signal conversion. Refuted for cycle times from 2^32, and for a message without a cycle time where an entry of a value table has the name of its macro."
  }
 ]
}