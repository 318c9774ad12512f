-Q theories Verif
theories/Py.v
theories/Common.v
theories/Sal.v
theories/Cal.v
theories/Packet.v
theories/Text.v
theories/Project.v
theories/Mqtt.v
theories/Buffered.v
theories/Client.v
theories/Server.v
theories/Cmqttd.v
theories/Registry.v
theories/Base.v
theories/Spec.v
theories/Common_facts.v
theories/Sal_facts.v
theories/Prop_common.v
theories/Prop_sal.v
theories/Cal_facts.v
theories/Prop_cal.v
theories/Packet_facts.v
theories/Packet_roundtrip.v
theories/Packet_decode.v
theories/Packet_total.v
theories/Prop_packet.v
theories/Buffer_facts.v
theories/Client_facts.v
theories/Prop_buffer.v
theories/Spec_client.v
theories/Client_steps.v
theories/Client_send.v
theories/Client_calls.v
theories/Client_dispatch.v
theories/Prop_client.v
theories/Spec_server.v
theories/Server_facts.v
theories/Prop_server.v
theories/Spec_sound.v
theories/Packet_sound.v
theories/Prop_sound.v
theories/Spec_mqtt.v
theories/Mqtt_facts.v
theories/Prop_mqtt.v
theories/Prop_dates.v
theories/Prop_control.v
theories/Prop_registry.v
theories/Prop_discovery.v
theories/Spec_system.v
theories/System_facts.v
theories/System_client.v
theories/System_reply.v
theories/Prop_length.v
theories/Prop_system.v
theories/Daemon.v
theories/Spec_daemon.v
theories/Prop_daemon.v
theories/Cbz.v
theories/Spec_cbz.v
theories/Cbz_facts.v
theories/Prop_cbz.v
theories/Toolkit.v
theories/Spec_toolkit.v
theories/Prop_toolkit.v
theories/Prop_announce.v
theories/Prop_fragment.v
theories/Startup.v
theories/Spec_startup.v
theories/Prop_startup.v
theories/Helper.v
theories/Prop_helper.v
theories/Loop.v
theories/Spec_loop.v
theories/Loop_facts.v
theories/Prop_loop.v
theories/Timed.v
theories/Spec_timed.v
theories/Prop_timed.v
theories/House.v
theories/Spec_house.v
theories/House_facts.v
theories/Prop_house.v
theories/Fetch.v
theories/Spec_fetch.v
theories/Fetch_facts.v
theories/Fetch_names.v
theories/Prop_fetch.v
theories/Fetch_resume.v
theories/Prop_fetch2.v
theories/Spec_fetch_name.v
theories/Prop_fetch_name.v
theories/Cmdline.v
theories/Spec_cmdline.v
theories/Cmdline_facts.v
theories/Prop_cmdline.v
theories/Prop_container.v
theories/Prop_noclock.v
theories/Json.v
theories/Float.v
theories/Spec_json.v
theories/Json_facts.v
theories/Utf_facts.v
theories/Prop_json.v
theories/Scripts.v
theories/Prop_scripts.v
theories/Tools.v
theories/Spec_tools.v
theories/Tools_facts.v
theories/Prop_tools.v
theories/Argparse.v
theories/Spec_argparse.v
theories/Argparse_facts.v
theories/Prop_argparse.v
theories/Redirect.v
theories/Spec_redirect.v
theories/Redirect_facts.v
theories/RedirectLink.v
theories/RedirectLink_facts.v
theories/Prop_redirect.v
theories/Responder.v
theories/Prop_responder.v
theories/Threads.v
theories/Spec_threads.v
theories/Threads_facts.v
theories/Threads_turn.v
theories/Prop_threads.v
theories/Race.v
theories/Spec_race.v
theories/Race_facts.v
theories/Prop_race.v
theories/Restart.v
theories/Spec_restart.v
theories/Restart_facts.v
theories/Prop_restart.v
theories/Spec_noise.v
theories/Noise_facts.v
theories/Prop_noise.v
theories/Transport.v
theories/Spec_transport.v
theories/Transport_facts.v
theories/Prop_transport.v
theories/Line.v
theories/Spec_line.v
theories/Line_facts.v
theories/Prop_line.v
theories/Prop_hangup.v
theories/RedirectLine.v
theories/Spec_switches.v
theories/Switches_facts.v
theories/Prop_switches.v
theories/Spec_position.v
theories/Prop_position.v
theories/Spec_convert.v
theories/Prop_convert.v
theories/Spec_wire.v
theories/Prop_wire.v
theories/Spec_reading.v
theories/Reading_facts.v
theories/Prop_reading.v
theories/Spec_listen.v
theories/Prop_listen.v
theories/Spec_whole.v
theories/Prop_whole.v
theories/Spec_session.v
theories/Prop_session.v
theories/Spec_relay.v
theories/Prop_relay.v
theories/Spec_float.v
theories/Prop_float.v
theories/RedirectHouse.v
theories/RedirectHouse_facts.v
theories/Spec_redirecthouse.v
theories/Prop_redirecthouse.v
theories/Prop_script.v
theories/Conformance.v
