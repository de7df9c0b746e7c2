.lia.cache
.nia.cache
*.aux
Makefile
Makefile.conf
.Makefile.d
*.vo
*.vok
*.vos
*.glob
